(** * Newline-safety analysis of grammars, and its soundness

    Both parsers remember the offsets of line starts in a stack that is
    updated while matching (rule EOL, [_line_start_]) and never rolled back.
    [nls] is a sufficient syntactic condition for that stack to be, whatever
    backtracking happens, a prefix of the true list of line starts that covers
    the current position. *)
From Verif Require Import Peg PegWf PegProofs QuickModel.

Section Analysis.
Context {R A Q : Type}.
Notation pexp := (pexp R A Q).
Variable nl : R -> bool.                 (* nullable table *)
Variable T : R -> bool * bool.           (* per rule: flags, see [nls] *)
Variable iseol : R -> bool.              (* is this the EOL rule? *)
Variable isline : Q -> bool.             (* is this the line_start code? *)
Variable absent : ascii -> bool.         (* bytes assumed not to occur *)

(** [e] cannot succeed if the [absent] bytes do not occur *)
Fixpoint never (e : pexp) : bool :=
  match e with
  | PChar c => absent c
  | PStr s => existsb absent s
  | PClass cs => forallb absent cs
  | PSeq e1 e2 => never e1 || never e2
  | PAlt e1 e2 => never e1 && never e2
  | PPlus e | PAnd e => never e
  | PErr e _ => never e
  | _ => false
  end.

(** matching touches no user state *)
Definition atomic (e : pexp) : bool :=
  match e with PDot | PChar _ | PClass _ | PStr _ => true | _ => false end.

(** [nls h e = Some (hs, hf)].  A position is "handled" if, should the byte
    there be a newline, the following line start has been recorded already.
    [h]: handled on entry; [hs]: handled (at the new position) after success;
    [hf]: handled (at the entry position) after failure. *)
Fixpoint nls (h : bool) (e : pexp) : option (bool * bool) :=
  match e with
  | PDot => if h then Some (false, true) else None
  | PChar c => if negb (beq c NL) || h then Some (false, h) else None
  | PStr s => if forallb (fun c => negb (beq c NL)) s then Some (false, h) else None
  | PClass cs => if forallb (fun c => negb (beq c NL)) cs || h
                 then Some (false, h) else None
  | PRule r => if iseol r then Some (false, true)
               else Some (fst (T r), h || snd (T r))
  | PSeq e1 e2 =>
      match nls h e1 with
      | None => None
      | Some (s1, f1) =>
          if never e1 then Some (true, h || f1) else
          match nls s1 e2 with
          | None => None
          | Some (s2, f2) =>
              Some (s2, h || (f1 && (if nullable nl e1 then f2 else true)))
          end
      end
  | PAlt e1 e2 =>
      match nls h e1 with
      | None => None
      | Some (s1, f1) =>
          match nls f1 e2 with
          | None => None
          | Some (s2, f2) => Some (s1 && s2, f2)
          end
      end
  | PStar e =>
      match nls false e with
      | None => None
      | Some (s1, f1) => Some (f1, true)
      end
  | PPlus e =>
      match nls h e, nls false e with
      | Some (s1, f1), Some (s2, f2) => Some (f2, f1)
      | _, _ => None
      end
  | PQuery e =>
      match nls h e with
      | None => None
      | Some (s1, f1) => Some (s1 && f1, true)
      end
  | PAnd e =>
      if atomic e then Some (h, h) else
      match nls h e with
      | None => None
      | Some (s1, f1) => Some (h || (if nullable nl e then s1 else true), f1)
      end
  | PNot e =>
      if atomic e then Some (h, h) else
      match nls h e with
      | None => None
      | Some (s1, f1) => Some (f1, h || (if nullable nl e then s1 else true))
      end
  | PAct _ => Some (h, h)
  | PPred q => if isline q then None else Some (h, h)
  | PErr e q => if isline q then None else nls h e
  end.

(** table entry of a rule justified by its body *)
Definition nls_rule (G : R -> pexp) (r : R) : bool :=
  match nls false (G r) with
  | None => false
  | Some (a, b) => implb (fst (T r)) a && implb (snd (T r)) b
  end.

End Analysis.

(** ** True line starts *)
Section Starts.
Variable get : nat -> option ascii.

Definition is_nl (p : nat) : bool :=
  match get p with Some c => beq c NL | None => false end.

Definition is_start (p : nat) : bool :=
  match p with 0 => true | S q => is_nl q end.

Definition starts (b : nat) : list nat := filter is_start (seq 0 (S b)).

Lemma starts_S : forall b, starts (S b) =
  starts b ++ (if is_nl b then [S b] else []).
Proof.
  intros b. unfold starts. rewrite (seq_S (S b)), filter_app. cbn [Nat.add filter is_start].
  destruct (is_nl b); reflexivity.
Qed.

Lemma starts_in : forall b x, In x (starts b) -> x <= b.
Proof. intros b x H. apply filter_In in H. destruct H as [H _]. apply in_seq in H. lia. Qed.

Lemma rev_starts_nonempty : forall b, starts b <> [].
Proof. intros b. unfold starts. cbn. discriminate. Qed.

Lemma backtrack_starts : forall b p, p <= b ->
  backtrack (rev (starts b)) p = rev (starts p).
Proof.
  induction b as [|b IH]; intros p Hp.
  - replace p with 0 by lia. reflexivity.
  - destruct (Nat.eq_dec p (S b)) as [->|Hne].
    + destruct (rev (starts (S b))) as [|t l] eqn:Hl; [reflexivity|]. cbn [backtrack].
      assert (In t (starts (S b))) as Hin by (apply in_rev; rewrite Hl; left; auto).
      apply starts_in in Hin. destruct (Nat.ltb_spec (S b) t); [lia|reflexivity].
    + rewrite starts_S, rev_app_distr. destruct (is_nl b); cbn [rev app backtrack].
      * destruct (Nat.ltb_spec p (S b)); [|lia]. apply IH. lia.
      * apply IH. lia.
Qed.

Lemma find_line_starts : forall b p, p <= b ->
  find_line (rev (starts b)) p = find_line (rev (starts p)) p.
Proof.
  induction b as [|b IH]; intros p Hp.
  - replace p with 0 by lia. reflexivity.
  - destruct (Nat.eq_dec p (S b)) as [->|Hne]; [reflexivity|].
    rewrite starts_S, rev_app_distr. destruct (is_nl b); cbn [rev app find_line].
    + destruct (Nat.ltb_spec p (S b)); [|lia]. apply IH. lia.
    + apply IH. lia.
Qed.

Definition LI (p : nat) (l : list nat) : Prop :=
  exists b, p <= b /\ l = rev (starts b).

Lemma LI_down : forall p q l, q <= p -> LI p l -> LI q l.
Proof. intros p q l H [b [Hb ->]]. exists b. split; [lia|auto]. Qed.

Lemma LI_step : forall p l, LI p l -> is_nl p = false -> LI (S p) l.
Proof.
  intros p l [b [Hb ->]] H. destruct (Nat.eq_dec b p) as [->|].
  - exists (S p). split; [lia|]. rewrite starts_S, H, app_nil_r. reflexivity.
  - exists b. split; [lia|reflexivity].
Qed.

Lemma hd_starts_nl : forall q, is_nl q = true -> hd 0 (rev (starts (S q))) = S q.
Proof. intros q H. rewrite starts_S, H, rev_app_distr. reflexivity. Qed.

(** recording the line start after a newline at [q] *)
Lemma LI_line_start : forall q l, LI q l -> is_nl q = true ->
  exists b, S q <= b /\ b <= Nat.max (S q) b /\ line_start (S q) l = rev (starts (S q)) .
Proof.
  intros q l [b [Hb ->]] H. exists (S q). repeat split; try lia.
  unfold line_start. destruct (Nat.eq_dec b q) as [->|Hne].
  - assert (backtrack (rev (starts q)) (S q) = rev (starts q)) as ->.
    { destruct (rev (starts q)) as [|t l] eqn:Hl; [reflexivity|]. cbn [backtrack].
      assert (In t (starts q)) as Hin by (apply in_rev; rewrite Hl; left; auto).
      apply starts_in in Hin. destruct (Nat.ltb_spec (S q) t); [lia|reflexivity]. }
    assert (hd 0 (rev (starts q)) <> S q) as Hh.
    { destruct (rev (starts q)) as [|t l] eqn:Hl; [cbn; lia|]. cbn.
      assert (In t (starts q)) as Hin by (apply in_rev; rewrite Hl; left; auto).
      apply starts_in in Hin. lia. }
    apply Nat.eqb_neq in Hh. rewrite Hh.
    rewrite starts_S, H, rev_app_distr. reflexivity.
  - rewrite backtrack_starts by lia. rewrite (hd_starts_nl q H), Nat.eqb_refl. reflexivity.
Qed.

End Starts.

(** ** Soundness *)
Section Sound.
Context {R A Q U : Type}.
Variable G : R -> pexp R A Q.
Variable get : nat -> option ascii.
Variable prun : Q -> nat -> option ascii -> U -> option (bool * U * list A).
Notation pst := (pst A U).
Notation pexp := (pexp R A Q).
Notation run := (run G get prun).

Variable nl : R -> bool.
Hypothesis nl_ok : forall r, nullable nl (G r) = true -> nl r = true.
Variable T : R -> bool * bool.
Variable iseol : R -> bool.
Variable isline : Q -> bool.
Variable absent : ascii -> bool.
Variable lines : U -> list nat.
Variable lsr : R.          (* the rule _line_start_ *)
Variable lsq : Q.          (* its code *)

Hypothesis eol_body : forall r, iseol r = true ->
  G r = PSeq (PAlt (PChar NL) (PStr [CR; NL])) (PRule lsr).
Hypothesis ls_body : G lsr = PPred lsq.
Hypothesis ls_run : forall p c u, exists u',
  prun lsq p c u = Some (true, u', []) /\ lines u' = line_start p (lines u).
Hypothesis other_run : forall q p c u b u' l, isline q = false ->
  prun q p c u = Some (b, u', l) -> lines u' = lines u.
(** [okr] marks the rules that passed the check: every rule but EOL and
    _line_start_ themselves *)
Hypothesis T_ok : forall r, iseol r = false -> r <> lsr ->
  nls_rule nl T iseol isline absent G r = true.
Hypothesis T_ls : T lsr = (false, false).
(** _line_start_ is used only inside EOL: no other rule mentions it *)
Fixpoint mentions (lsb : R -> bool) (e : pexp) : bool :=
  match e with
  | PRule r => lsb r
  | PSeq e1 e2 | PAlt e1 e2 => mentions lsb e1 || mentions lsb e2
  | PStar e | PPlus e | PQuery e | PAnd e | PNot e => mentions lsb e
  | PErr e _ => mentions lsb e
  | _ => false
  end.
Variable lsb : R -> bool.
Hypothesis lsb_ok : forall r, lsb r = true <-> r = lsr.
Hypothesis no_mention : forall r, iseol r = false -> mentions lsb (G r) = false.
Hypothesis absent_ok : forall p c, get p = Some c -> absent c = false.

Notation LI := (LI get).
Notation is_nl := (is_nl get).

Definition HI (h : bool) (p : nat) (l : list nat) : Prop :=
  LI p l /\ (h = true -> is_nl p = true -> LI (S p) l).

Definition stable (s s' : pst) : Prop :=
  forall p, p <= S (pos s) -> LI p (lines (user s)) -> LI p (lines (user s')).

Lemma never_sound : forall n e s s', never absent e = true -> run n e s <> ROk s'.
Proof.
  induction n as [|n IH]; intros e s s' Hn; [discriminate|].
  destruct e; cbn [never Peg.run] in *; try discriminate.
  - destruct (get (pos s)) eqn:Hg; [|discriminate].
    destruct (beq c a) eqn:Hb; [|discriminate]. apply Ascii.eqb_eq in Hb. subst.
    apply absent_ok in Hg. congruence.
  - destruct (match_str get s0 (pos s) (pos s)) eqn:Hm; [|discriminate].
    apply match_str_inl in Hm. destruct Hm as [_ Hm]. apply existsb_exists in Hn.
    destruct Hn as [c [Hin Hc]]. apply In_nth_error in Hin. destruct Hin as [i Hi].
    assert (i < List.length s0) by (apply nth_error_Some; congruence).
    rewrite <- Hm in Hi by auto. apply absent_ok in Hi. congruence.
  - destruct (get (pos s)) eqn:Hg; [|discriminate].
    destruct (in_class cs a) eqn:Hb; [|discriminate].
    apply existsb_exists in Hb. destruct Hb as [c [Hin Hc]]. apply Ascii.eqb_eq in Hc. subst c.
    rewrite forallb_forall in Hn. apply Hn in Hin. apply absent_ok in Hg. congruence.
  - destruct (Peg.run G get prun n e1 s) as [s1| | |] eqn:Hx; try discriminate.
    apply orb_true_iff in Hn. destruct Hn as [Hn|Hn].
    + exfalso. eapply IH; eauto.
    + eapply IH; eauto.
  - apply andb_true_iff in Hn. destruct Hn as [Hn1 Hn2].
    destruct (Peg.run G get prun n e1 s) as [s1|s1| |] eqn:Hx; try discriminate.
    + exfalso. exact (IH _ _ _ Hn1 Hx).
    + apply IH. exact Hn2.
  - destruct (Peg.run G get prun n e s) as [s1| | |] eqn:Hx; try discriminate.
    exfalso. eapply IH; eauto.
  - destruct (Peg.run G get prun n e s) as [s1| | |] eqn:Hx; try discriminate.
    exfalso. eapply IH; eauto.
  - destruct (Peg.run G get prun n e s) as [s1| | |] eqn:Hx; try discriminate.
    + exfalso. eapply IH; eauto.
    + unfold run_pred. destruct (prun q _ _ _) as [[[[] u] l]|]; discriminate.
Qed.

Lemma atomic_user : forall n e s, atomic e = true ->
  match run n e s with ROk s' | RFail s' => user s' = user s | _ => True end.
Proof.
  intros n e s H. destruct n; [exact I|]. destruct e; try discriminate; cbn [Peg.run].
  - destruct (get (pos s)); reflexivity.
  - destruct (get (pos s)); [destruct (beq c a)|]; reflexivity.
  - destruct (match_str get s0 (pos s) (pos s)); reflexivity.
  - destruct (get (pos s)); [destruct (in_class cs a)|]; reflexivity.
Qed.

(** EOL itself *)
Lemma eol_sound : forall n r s, iseol r = true -> LI (pos s) (lines (user s)) ->
  match run n (PRule r) s with
  | ROk s' => LI (pos s') (lines (user s')) /\ stable s s' /\ pos s < pos s'
  | RFail s' => user s' = user s /\ is_nl (pos s) = false
  | _ => True
  end.
Proof.
  intros n r s Hr HL. destruct n as [|n]; [exact I|]. cbn [Peg.run].
  rewrite (eol_body r Hr).
  assert (Hset : forall q (u : U) s1 (Hs1 : s1 = mkst (S q) (thunks s) u) (Hu : u = user s),
    pos s <= q -> is_nl q = true -> (forall x, pos s <= x -> x < q -> is_nl x = false) ->
    match run n (PRule lsr) s1 with
    | ROk s' => LI (pos s') (lines (user s')) /\ stable s s' /\ pos s < pos s'
    | RFail _ => False | _ => True end).
  { intros q u s1 -> -> Hq Hnl Hno. destruct n as [|n']; [exact I|]. cbn [Peg.run].
    rewrite ls_body. destruct n' as [|n'']; [exact I|]. cbn [Peg.run].
    unfold run_pred. cbn [pos user thunks].
    destruct (ls_run (S q) (get (S q)) (user s)) as [u' [-> Hu']]. cbn [pos user].
    assert (LI q (lines (user s))) as HLq.
    { clear Hu' u'. remember (q - pos s) as d. revert q Hq Hnl Hno Heqd.
      induction d as [|d IHd]; intros q Hq Hnl Hno Hd.
      - replace q with (pos s) by lia. auto.
      - destruct q as [|q]; [lia|].
        assert (forall x, pos s <= x -> x <= q -> LI x (lines (user s))) as HH.
        { intros x Hx1. induction Hx1; intros Hx2; [auto|].
          apply LI_step; [apply IHHx1; lia|apply Hno; lia]. }
        apply LI_step; [apply HH; lia|apply Hno; lia]. }
    destruct (LI_line_start get q (lines (user s)) HLq Hnl) as [b [_ [_ Hls]]].
    rewrite Hu', Hls. split; [|split].
    - exists (S q). split; [lia|reflexivity].
    - intros p Hp _. cbn [user]. rewrite Hu', Hls. exists (S q). split; [lia|reflexivity].
    - lia. }
  destruct n as [|n1]; [exact I|].
  cbn [Peg.run].
  destruct n1 as [|n2]; [cbn; exact I|].
  remember (Peg.run G get prun (S n2) (PAlt (PChar NL) (PStr [CR; NL])) s) as r0 eqn:Hr0.
  cbn [Peg.run] in Hr0.
  destruct n2 as [|n3]; [cbn in Hr0; subst; exact I|].
  cbn [Peg.run] in Hr0.
  assert (Hmono : forall s1, match run (S (S (S n3))) (PRule lsr) s1 with
    | ROk s' => LI (pos s') (lines (user s')) /\ stable s s' /\ pos s < pos s'
    | RFail _ => False | _ => True end ->
    match run (S (S n3)) (PRule lsr) s1 with
    | ROk s' => LI (pos s') (lines (user s')) /\ stable s s' /\ pos s < pos s'
    | RFail s' => False | _ => True end).
  { intros s1 H. destruct (Peg.run G get prun (S (S n3)) (PRule lsr) s1) as [s'|s'| |] eqn:Hx; auto.
    - rewrite (run_mono G get prun _ _ _ _ Hx) in H by (try lia; discriminate). exact H.
    - rewrite (run_mono G get prun _ _ _ _ Hx) in H by (try lia; discriminate). exact H. }
  destruct (get (pos s)) as [c|] eqn:Hg.
  - destruct (beq NL c) eqn:Hb.
    + subst r0. unfold advance.
      assert (is_nl (pos s) = true) as Hnl.
      { unfold LineSafe.is_nl. rewrite Hg. apply Ascii.eqb_eq in Hb. subst. reflexivity. }
      specialize (Hset (pos s) (user s) _ eq_refl eq_refl (le_n _) Hnl).
      assert (forall x, pos s <= x -> x < pos s -> is_nl x = false) as Hv by (intros; lia).
      specialize (Hset Hv). apply Hmono in Hset.
      destruct (Peg.run G get prun (S (S n3)) (PRule lsr) _); auto. contradiction.
    + assert (is_nl (pos s) = false) as Hnl.
      { unfold LineSafe.is_nl. rewrite Hg. destruct (beq c NL) eqn:Hb'; auto.
        apply Ascii.eqb_eq in Hb'. subst. cbn in Hb. discriminate. }
      cbn [match_str restore pos thunks user] in Hr0. rewrite Hg in Hr0.
      destruct (beq CR c) eqn:Hcr.
      * destruct (get (S (pos s))) as [c2|] eqn:Hg2.
        -- destruct (beq NL c2) eqn:Hb2.
           ++ subst r0.
              assert (is_nl (S (pos s)) = true) as Hnl2.
              { unfold LineSafe.is_nl. rewrite Hg2. apply Ascii.eqb_eq in Hb2. subst. reflexivity. }
              specialize (Hset (S (pos s)) (user s) _ eq_refl eq_refl (le_S _ _ (le_n _)) Hnl2).
              assert (forall x, pos s <= x -> x < S (pos s) -> is_nl x = false) as Hv.
              { intros x Hx1 Hx2. replace x with (pos s) by lia. auto. }
              specialize (Hset Hv). apply Hmono in Hset.
              destruct (Peg.run G get prun (S (S n3)) (PRule lsr) _); auto. contradiction.
           ++ subst r0. cbn. auto.
        -- subst r0. cbn. auto.
      * subst r0. cbn. auto.
  - cbn [match_str restore pos thunks user] in Hr0. rewrite Hg in Hr0. subst r0. cbn.
    split; [reflexivity|]. unfold LineSafe.is_nl. rewrite Hg. reflexivity.
Qed.

Theorem nls_sound : forall n e h hs hf s,
  nls nl T iseol isline absent h e = Some (hs, hf) ->
  mentions lsb e = false ->
  HI h (pos s) (lines (user s)) ->
  match run n e s with
  | ROk s' => HI hs (pos s') (lines (user s')) /\ stable s s'
  | RFail s' => HI hf (pos s) (lines (user s')) /\ stable s s'
  | _ => True
  end.
Proof.
  induction n as [|n IH]; intros e h hs hf s Hn Hm HH; [exact I|].
  pose proof HH as [HL HN].
  assert (Srefl : forall s' : pst, lines (user s') = lines (user s) -> stable s s').
  { intros s' Heq p _ Hp. rewrite Heq. exact Hp. }
  assert (Strans : forall s1 s2 : pst, pos s <= pos s1 -> stable s s1 -> stable s1 s2 -> stable s s2).
  { intros s1 s2 Hp H1 H2 p Hle HLp. apply H2; [lia|]. apply H1; auto. }
  (* consumption implies the entry position is handled *)
  assert (Cons : forall s1 : pst, pos s < pos s1 -> LI (pos s1) (lines (user s1)) ->
     LI (S (pos s)) (lines (user s1))).
  { intros s1 Hp H1. eapply LI_down; [|exact H1]. lia. }
  destruct e; cbn [nls mentions] in Hn, Hm; cbn [Peg.run].
  - (* dot *)
    destruct h; [|discriminate]. injection Hn as <- <-.
    destruct (get (pos s)) eqn:Hg; cbn [advance pos user].
    + split; [|apply Srefl; reflexivity]. split; [|discriminate].
      destruct (is_nl (pos s)) eqn:Hnl; [auto|]. apply LI_step; auto.
    + split; [|apply Srefl; reflexivity]. split; [auto|]. intros _ Hx.
      unfold LineSafe.is_nl in Hx. rewrite Hg in Hx. discriminate.
  - (* char *)
    destruct (negb (beq c NL) || h) eqn:Hc; [|discriminate]. injection Hn as <- <-.
    destruct (get (pos s)) as [c'|] eqn:Hg; [destruct (beq c c') eqn:Hb|].
    + split; [|apply Srefl; reflexivity]. split; [|discriminate]. cbn [advance pos user].
      apply Ascii.eqb_eq in Hb. subst c'.
      destruct (is_nl (pos s)) eqn:Hnl; [|apply LI_step; auto].
      apply HN; auto. apply orb_true_iff in Hc. destruct Hc as [Hc|Hc]; auto.
      unfold LineSafe.is_nl in Hnl. rewrite Hg in Hnl. rewrite Hnl in Hc. discriminate.
    + split; [|apply Srefl; reflexivity]. exact HH.
    + split; [|apply Srefl; reflexivity]. exact HH.
  - (* str *)
    destruct (forallb (fun c => negb (beq c NL)) s0) eqn:Hc; [|discriminate]. injection Hn as <- <-.
    destruct (match_str get s0 (pos s) (pos s)) eqn:Hms; cbn [pos user].
    + split; [|apply Srefl; reflexivity]. split; [|discriminate].
      apply match_str_inl in Hms. destruct Hms as [-> Hms].
      rewrite forallb_forall in Hc.
      assert (forall i, i <= List.length s0 -> LI (pos s + i) (lines (user s))) as HX.
      { induction i as [|i IHi]; intros Hi; [rewrite Nat.add_0_r; auto|].
        replace (pos s + S i) with (S (pos s + i)) by lia. apply LI_step; [apply IHi; lia|].
        unfold LineSafe.is_nl. rewrite Hms by lia.
        destruct (nth_error s0 i) eqn:He; [|auto].
        apply nth_error_In in He. apply Hc in He. apply negb_true_iff in He. auto. }
      apply HX. lia.
    + split; [|apply Srefl; reflexivity]. exact HH.
  - (* class *)
    destruct (forallb (fun c => negb (beq c NL)) cs || h) eqn:Hc; [|discriminate]. injection Hn as <- <-.
    destruct (get (pos s)) as [c'|] eqn:Hg; [destruct (in_class cs c') eqn:Hb|].
    + split; [|apply Srefl; reflexivity]. split; [|discriminate]. cbn [advance pos user].
      destruct (is_nl (pos s)) eqn:Hnl; [|apply LI_step; auto].
      apply HN; auto. apply orb_true_iff in Hc. destruct Hc as [Hc|Hc]; auto.
      apply existsb_exists in Hb. destruct Hb as [c [Hin Hcc]]. apply Ascii.eqb_eq in Hcc. subst c.
      rewrite forallb_forall in Hc. apply Hc in Hin.
      unfold LineSafe.is_nl in Hnl. rewrite Hg in Hnl. rewrite Hnl in Hin. discriminate.
    + split; [|apply Srefl; reflexivity]. exact HH.
    + split; [|apply Srefl; reflexivity]. exact HH.
  - (* rule *)
    destruct (iseol r) eqn:Hr.
    + injection Hn as <- <-.
      pose proof (eol_sound (S n) r s Hr HL) as HE. cbn [Peg.run] in HE.
      destruct (Peg.run G get prun n (G r) s) as [s1|s1| |] eqn:Hx; auto.
      * destruct HE as [H1 [H2 H3]]. split; [split; [auto|discriminate]|auto].
      * destruct HE as [H1 H2]. cbn [restore user pos] in *. rewrite H1.
        split; [split; [auto|congruence]|]. apply Srefl. cbn. rewrite H1. reflexivity.
    + injection Hn as <- <-.
      assert (r <> lsr) as Hne. { intros ->. pose proof (proj2 (lsb_ok lsr) eq_refl). congruence. }
      pose proof (T_ok r Hr Hne) as HT. unfold nls_rule in HT.
      destruct (nls nl T iseol isline absent false (G r)) as [[a b]|] eqn:HG; [|discriminate].
      apply andb_true_iff in HT. destruct HT as [HT1 HT2].
      assert (HI false (pos s) (lines (user s))) as HH0 by (split; [auto|discriminate]).
      pose proof (IH (G r) false a b s HG (no_mention r Hr) HH0) as HR.
      destruct (Peg.run G get prun n (G r) s) as [s1|s1| |] eqn:Hx; auto.
      * destruct HR as [[HR1 HR2] HR3]. split; [|auto]. split; [auto|].
        intros Ht. rewrite Ht in HT1. cbn in HT1. auto.
      * destruct HR as [[HR1 HR2] HR3]. cbn [restore user]. split; [|exact HR3]. split; [auto|].
        intros Ht Hnl. apply orb_true_iff in Ht. destruct Ht as [Ht|Ht].
        -- apply HR3; [lia|]. apply HN; auto.
        -- rewrite Ht in HT2. cbn in HT2. auto.
  - (* seq *)
    apply orb_false_iff in Hm. destruct Hm as [Hm1 Hm2].
    destruct (nls nl T iseol isline absent h e1) as [[s1' f1]|] eqn:H1; [|discriminate].
    pose proof (IH e1 h s1' f1 s H1 Hm1 HH) as HE1.
    assert (Fail1 : forall sf : pst, HI f1 (pos s) (lines (user sf)) -> stable s sf ->
       forall X, (h || (f1 && X) = true) -> is_nl (pos s) = true -> LI (S (pos s)) (lines (user sf))).
    { intros sf [Ha Hb] Hst X HX Hnl. apply orb_true_iff in HX. destruct HX as [HX|HX].
      - apply Hst; auto.
      - apply andb_true_iff in HX. destruct HX as [HX _]. auto. }
    destruct (never absent e1) eqn:Hnev.
    + injection Hn as <- <-.
      destruct (Peg.run G get prun n e1 s) as [s1|s1| |] eqn:Hx; auto.
      * exfalso. eapply never_sound; eauto.
      * destruct HE1 as [Ha Hb]. split; [|auto]. split; [apply Ha|].
        intros Ht Hnl. apply orb_true_iff in Ht. destruct Ht as [Ht|Ht].
        -- apply Hb; auto.
        -- destruct Ha; auto.
    + destruct (nls nl T iseol isline absent s1' e2) as [[s2' f2]|] eqn:H2; [|discriminate].
      injection Hn as <- <-.
      destruct (Peg.run G get prun n e1 s) as [s1|s1| |] eqn:Hx; auto.
      * destruct HE1 as [Ha Hb].
        pose proof (run_ok_pos _ _ _ _ _ _ _ Hx) as Hp.
        pose proof (IH e2 s1' s2' f2 s1 H2 Hm2 Ha) as HE2.
        destruct (Peg.run G get prun n e2 s1) as [s2|s2| |] eqn:Hx2; auto.
        -- destruct HE2 as [Hc Hd]. split; [auto|]. eapply Strans; eauto.
        -- destruct HE2 as [Hc Hd]. assert (stable s s2) as Hst by (eapply Strans; eauto).
           split; [|auto]. split; [apply Hst; auto|].
           intros Ht Hnl. apply orb_true_iff in Ht. destruct Ht as [Ht|Ht].
           ++ apply Hst; auto.
           ++ apply andb_true_iff in Ht. destruct Ht as [_ Ht].
              destruct (Nat.eq_dec (pos s1) (pos s)) as [Heq|Hne].
              ** destruct (nullable nl e1) eqn:Hnull.
                 --- rewrite <- Heq. destruct Hc as [_ Hc]. apply Hc; auto. rewrite Heq. auto.
                 --- exfalso. pose proof (nullable_sound G get prun nl nl_ok _ _ _ _ Hx Hnull). lia.
              ** apply Hd; [lia|]. apply Cons; [lia|]. apply Ha.
      * destruct HE1 as [Ha Hb]. split; [|auto]. split; [apply Ha|].
        intros Ht Hnl. eapply Fail1; eauto.
  - (* alt *)
    apply orb_false_iff in Hm. destruct Hm as [Hm1 Hm2].
    destruct (nls nl T iseol isline absent h e1) as [[s1' f1]|] eqn:H1; [|discriminate].
    destruct (nls nl T iseol isline absent f1 e2) as [[s2' f2]|] eqn:H2; [|discriminate].
    injection Hn as <- <-.
    pose proof (IH e1 h s1' f1 s H1 Hm1 HH) as HE1.
    destruct (Peg.run G get prun n e1 s) as [s1|s1| |] eqn:Hx; auto.
    + destruct HE1 as [[Ha Ha'] Hb]. split; [|auto]. split; [auto|].
      intros Ht. apply andb_true_iff in Ht. destruct Ht as [Ht _]. auto.
    + destruct HE1 as [Ha Hb].
      pose proof (IH e2 f1 s2' f2 (restore s s1) H2 Hm2 Ha) as HE2.
      assert (stable s (restore s s1)) as Hst by exact Hb.
      destruct (Peg.run G get prun n e2 (restore s s1)) as [s2|s2| |] eqn:Hx2; auto.
      * destruct HE2 as [[Hc Hc'] Hd]. split; [split; [auto|]|].
        -- intros Ht. apply andb_true_iff in Ht. destruct Ht as [_ Ht]. auto.
        -- eapply Strans; [|exact Hst|exact Hd]. cbn; lia.
      * destruct HE2 as [Hc Hd]. split; [exact Hc|].
        eapply Strans; [|exact Hst|exact Hd]. cbn; lia.
  - (* star *)
    destruct (nls nl T iseol isline absent false e) as [[s1' f1]|] eqn:H1; [|discriminate].
    injection Hn as <- <-.
    assert (HI false (pos s) (lines (user s))) as HH0 by (split; [auto|discriminate]).
    pose proof (IH e false s1' f1 s H1 Hm HH0) as HE1.
    destruct (Peg.run G get prun n e s) as [s1|s1| |] eqn:Hx; auto.
    + destruct HE1 as [Ha Hb].
      assert (nls nl T iseol isline absent s1' (PStar e) = Some (f1, true)) as HS
        by (cbn [nls]; rewrite H1; reflexivity).
      pose proof (IH (PStar e) s1' f1 true s1 HS Hm Ha) as HE2.
      pose proof (run_ok_pos _ _ _ _ _ _ _ Hx) as Hp.
      destruct (Peg.run G get prun n (PStar e) s1) as [s2|s2| |] eqn:Hx2; auto.
      * destruct HE2 as [Hc Hd]. split; [auto|]. eapply Strans; eauto.
      * exfalso. clear - Hx2. revert s1 s2 Hx2. induction n as [|n IHn]; intros s1 s2 Hx2; [discriminate|].
        cbn [Peg.run] in Hx2. destruct (Peg.run G get prun n e s1); try discriminate. eauto.
  - (* plus *)
    destruct (nls nl T iseol isline absent h e) as [[s1' f1]|] eqn:H1; [|discriminate].
    destruct (nls nl T iseol isline absent false e) as [[s2' f2]|] eqn:H2; [|discriminate].
    injection Hn as <- <-.
    pose proof (IH e h s1' f1 s H1 Hm HH) as HE1.
    destruct (Peg.run G get prun n e s) as [s1|s1| |] eqn:Hx; auto.
    destruct HE1 as [Ha Hb].
    assert (nls nl T iseol isline absent s1' (PStar e) = Some (f2, true)) as HS
      by (cbn [nls]; rewrite H2; reflexivity).
    pose proof (IH (PStar e) s1' f2 true s1 HS Hm Ha) as HE2.
    pose proof (run_ok_pos _ _ _ _ _ _ _ Hx) as Hp.
    destruct (Peg.run G get prun n (PStar e) s1) as [s2|s2| |] eqn:Hx2; auto.
    + destruct HE2 as [Hc Hd]. split; [auto|]. eapply Strans; eauto.
    + exfalso. clear - Hx2. revert s1 s2 Hx2. induction n as [|n IHn]; intros s1 s2 Hx2; [discriminate|].
      cbn [Peg.run] in Hx2. destruct (Peg.run G get prun n e s1); try discriminate. eauto.
  - (* query *)
    destruct (nls nl T iseol isline absent h e) as [[s1' f1]|] eqn:H1; [|discriminate].
    injection Hn as <- <-.
    pose proof (IH e h s1' f1 s H1 Hm HH) as HE1.
    destruct (Peg.run G get prun n e s) as [s1|s1| |] eqn:Hx; auto.
    + destruct HE1 as [[Ha Ha'] Hb]. split; [|auto]. split; [auto|].
      intros Ht. apply andb_true_iff in Ht. destruct Ht as [Ht _]. auto.
    + destruct HE1 as [[Ha Ha'] Hb]. split; [|exact Hb]. split; [exact Ha|].
      intros Ht. apply andb_true_iff in Ht. destruct Ht as [_ Ht]. cbn. auto.
  - (* and *)
    destruct (atomic e) eqn:Hat.
    { injection Hn as <- <-. pose proof (atomic_user n e s Hat) as HU.
      destruct (Peg.run G get prun n e s) as [s1|s1| |] eqn:Hx; auto;
      cbn [restore pos user]; rewrite HU; (split; [exact HH|]); apply Srefl; cbn; rewrite HU; reflexivity. }
    destruct (nls nl T iseol isline absent h e) as [[s1' f1]|] eqn:H1; [|discriminate].
    injection Hn as <- <-.
    pose proof (IH e h s1' f1 s H1 Hm HH) as HE1.
    destruct (Peg.run G get prun n e s) as [s1|s1| |] eqn:Hx; auto.
    destruct HE1 as [[Ha Ha'] Hb]. cbn [restore user pos]. split; [|exact Hb].
    split; [apply Hb; auto|]. intros Ht Hnl. apply orb_true_iff in Ht. destruct Ht as [Ht|Ht].
    + apply Hb; auto.
    + pose proof (run_ok_pos _ _ _ _ _ _ _ Hx) as Hp.
      destruct (Nat.eq_dec (pos s1) (pos s)) as [Heq|Hne].
      * destruct (nullable nl e) eqn:Hnull.
        -- rewrite <- Heq. apply Ha'; auto. rewrite Heq. auto.
        -- exfalso. pose proof (nullable_sound G get prun nl nl_ok _ _ _ _ Hx Hnull). lia.
      * apply Cons; [lia|auto].
  - (* not *)
    destruct (atomic e) eqn:Hat.
    { injection Hn as <- <-. pose proof (atomic_user n e s Hat) as HU.
      destruct (Peg.run G get prun n e s) as [s1|s1| |] eqn:Hx; auto;
      cbn [restore pos user]; rewrite HU; (split; [exact HH|]); apply Srefl; cbn; rewrite HU; reflexivity. }
    destruct (nls nl T iseol isline absent h e) as [[s1' f1]|] eqn:H1; [|discriminate].
    injection Hn as <- <-.
    pose proof (IH e h s1' f1 s H1 Hm HH) as HE1.
    destruct (Peg.run G get prun n e s) as [s1|s1| |] eqn:Hx; auto.
    destruct HE1 as [[Ha Ha'] Hb]. split; [|exact Hb].
    split; [apply Hb; auto|]. intros Ht Hnl. apply orb_true_iff in Ht. destruct Ht as [Ht|Ht].
    + apply Hb; auto.
    + pose proof (run_ok_pos _ _ _ _ _ _ _ Hx) as Hp.
      destruct (Nat.eq_dec (pos s1) (pos s)) as [Heq|Hne].
      * destruct (nullable nl e) eqn:Hnull.
        -- rewrite <- Heq. apply Ha'; auto. rewrite Heq. auto.
        -- exfalso. pose proof (nullable_sound G get prun nl nl_ok _ _ _ _ Hx Hnull). lia.
      * apply Cons; [lia|auto].
  - (* act *)
    injection Hn as <- <-. cbn. split; [exact HH|]. apply Srefl; reflexivity.
  - (* pred *)
    destruct (isline q) eqn:Hq; [discriminate|]. injection Hn as <- <-.
    unfold run_pred. destruct (prun q (pos s) (get (pos s)) (user s)) as [[[b u] l]|] eqn:Hp; auto.
    pose proof (other_run _ _ _ _ _ _ _ Hq Hp) as Hlu.
    destruct b; cbn [pos user]; rewrite Hlu; (split; [exact HH|]); apply Srefl; exact Hlu.
  - (* err *)
    destruct (isline q) eqn:Hq; [discriminate|].
    pose proof (IH e h hs hf s Hn Hm HH) as HE1.
    destruct (Peg.run G get prun n e s) as [s1|s1| |] eqn:Hx; auto.
    destruct HE1 as [Ha Hb].
    unfold run_pred. destruct (prun q (pos s1) (get (pos s1)) (user s1)) as [[[b u] l]|] eqn:Hp; auto.
    pose proof (other_run _ _ _ _ _ _ _ Hq Hp) as Hlu.
    destruct b; cbn [user]; rewrite Hlu; (split; [exact Ha|]); intros p Hle HLp; cbn [user]; rewrite Hlu; apply Hb; auto.
Qed.

End Sound.
