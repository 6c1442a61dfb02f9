(** * One round of the parser: a call of parse_one (parser.c:729-776) *)
From Coq Require Import List Bool Arith Lia Sorted.
From Verif Require Import Peg PegWf PegProofs PegMode LineSafe LineLevels QuickModel QuickSpec
  QuickProofs QuickProps CypherSyntax CypherGrammar OperModel ErrModel CypherMatch CypherTables
  CypherLineTables CypherRun CypherInv AstTypes AstModel CypherBuild CypherExec CypherParse.
Import ListNotations.

Definition entry (r : rule) : Prop := r = R_directive \/ r = R_statement.
Definition entry' (r : rule) : Prop := r = R__directive \/ r = R__statement.

Lemma start_entry : forall fl, entry (start_rule fl).
Proof. intros fl. unfold start_rule, entry. destruct (pf_only_statements fl); auto. Qed.

(** ** Matching *)
Section Match.
Variables (col : coloring) (off : position) (inp : bytes).
Notation get := (get_of inp).
Notation len := (List.length inp).
Notation runc := (run CG get (cprun col off)).

Lemma cfuel_enough : rulem_fuel len c_kmax c_m <= cfuel inp.
Proof.
  unfold rulem_fuel, fpb, cfuel, c_kmax, c_m. generalize len. intros l.
  change (50 * 50) with 2500. change (10 * 200) with 2000. rewrite Nat.mul_succ_l.
  assert (l * (2000 + 201 + 200 + 1) <= l * 2500); [|lia].
  apply Nat.mul_le_mono_l. lia.
Qed.

Lemma match_not_fuel : forall r s, pos s <= len -> runc (cfuel inp) (PRule r) s <> RFuel.
Proof.
  intros r s Hs. eapply rulem_terminates with (su := c_su) (nl := c_nl) (sq := c_sq) (st := c_st)
    (rk := c_rk) (kmax := c_kmax) (m := c_m) (len := len); eauto using tables_ok, cfuel_enough.
  - apply get_len.
  - intros. apply c_sq_ok; auto.
Qed.

Lemma match_not_fail : forall n r s s', entry r -> runc n (PRule r) s <> RFail s'.
Proof.
  intros n r s s' Hr.
  eapply sure_sound with (su := c_su) (nl := c_nl) (sq := c_sq) (st := c_st)
    (rk := c_rk) (kmax := c_kmax) (m := c_m) (len := len); eauto using tables_ok.
  - apply get_len.
  - intros. apply c_sq_ok; auto.
  - cbn [sure]. destruct Hr as [-> | ->]; destruct (modeof len (pos s)); reflexivity.
Qed.

(** an entry rule consumes input unless there is none *)
Lemma match_progress : forall n r s s', entry r -> pos s < len ->
  runc n (PRule r) s = ROk s' -> pos s < pos s'.
Proof.
  intros n r s s' Hr Hp Hx.
  eapply nul_sound with (su := c_su) (nl := c_nl) (sq := c_sq) (st := c_st)
    (rk := c_rk) (kmax := c_kmax) (m := c_m) (len := len) (G := CG); eauto using tables_ok.
  - apply get_len.
  - intros. apply c_sq_ok; auto.
  - unfold modeof. destruct (Nat.ltb_spec (pos s) len) as [_|]; [|lia].
    destruct Hr as [-> | ->]; reflexivity.
Qed.

Lemma match_bound : forall n e s s', pos s <= len -> runc n e s = ROk s' -> pos s' <= len.
Proof.
  intros n e s s' Hs Hx. pose proof (run_pos_bound CG get (cprun col off) len (get_len inp) n e s Hs) as H.
  rewrite Hx in H. exact H.
Qed.

(** the precedence stack is as before *)
Lemma match_precs : forall n r s s', runc n (PRule r) s = ROk s' -> c_precs (user s') = c_precs (user s).
Proof.
  intros n r s s' Hx.
  pose proof (bal_sound col off get n (PRule r) 0 0 (Some 0) s (c_precs (user s)) eq_refl) as H.
  rewrite Hx in H. destruct H as [ps [H1 H2]]; [exists []; auto|]. destruct ps; [exact H2|discriminate].
Qed.

Lemma match_ok : forall r s, bq_ok inp -> entry r -> pos s <= len ->
  LI get (pos s) (c_lines (user s)) -> et_ok col off inp (c_et (user s)) ->
  exists s', runc (cfuel inp) (PRule r) s = ROk s' /\
    LI get (pos s') (c_lines (user s')) /\ et_ok col off inp (c_et (user s')).
Proof.
  intros r s Hbq Hr Hp HL HE.
  pose proof (match_not_fuel r s Hp) as N1.
  pose proof (fun s' => match_not_fail (cfuel inp) r s s' Hr) as N2.
  assert (oset o_to false (PRule r) = Some false) as Ho by (destruct Hr as [-> | ->]; reflexivity).
  pose proof (oset_sound col off get (cfuel inp) (PRule r) false false s Ho ltac:(discriminate)) as [E _].
  assert (exists hs hf lf, nle l_nl l_T l_pt l_eol l_bq l_isline l_iserr c_sq L0 (PRule r : cexp) = Some (hs, hf, lf)) as [hs [hf [lf Hn]]].
  { destruct Hr as [-> | ->]; vm_compute; eauto. }
  pose proof (cyrun_sound col off inp Hbq (cfuel inp) (PRule r) L0 hs hf lf s Hn Hp (conj HL I) HE) as H.
  rewrite <- E in H.
  destruct (runc (cfuel inp) (PRule r) s) as [s'|s'| |]; try contradiction.
  - exists s'. destruct H as [[H _] H']. auto.
  - exfalso. apply (N2 s'). reflexivity.
Qed.

(** ** The last thunk *)
Lemma last_thunk' : forall n r s s', entry' r -> runc n (PRule r) s = ROk s' ->
  exists ts, thunks s' = (TDo [SFinished], pos s') :: ts.
Proof.
  induction n as [n IH] using lt_wf_ind. intros r s s' Hr Hx.
  assert (Hc : exists a b c, CG r = (a ⋅ PAct (TDo [SFinished]) ∥ b ⋅ c ⋅ PRule r)).
  { destruct Hr as [-> | ->]; do 3 eexists; reflexivity. }
  destruct Hc as [ea [eb [ec Hc]]].
  destruct n as [|n]; [discriminate|]. cbn [Peg.run] in Hx. rewrite Hc in Hx.
  destruct n as [|n]; [discriminate|]. cbn [Peg.run] in Hx.
  destruct n as [|n]; [discriminate|]. cbn [Peg.run] in Hx.
  destruct (runc n ea s) as [s1|s1| |] eqn:Ha.
  - destruct n as [|n]; [discriminate|]. cbn [Peg.run] in Hx. injection Hx as <-. eexists. reflexivity.
  - destruct (runc n eb (restore s s1)) as [s2|s2| |] eqn:Hb; try discriminate.
    destruct n as [|n]; [discriminate|]. cbn [Peg.run] in Hx.
    destruct (runc n ec s2) as [s3|s3| |] eqn:H3; try discriminate.
    apply IH with (m := n) (r := r) (s := s3); [lia|auto|].
    destruct (runc n (PRule r) s3); try discriminate. exact Hx.
  - discriminate.
  - discriminate.
Qed.

Lemma last_thunk : forall n r s s', entry r -> runc n (PRule r) s = ROk s' ->
  exists ts, thunks s' = (TDo [SFinished], pos s') :: ts.
Proof.
  intros n r s s' Hr Hx.
  assert (Hc : exists r', CG r = PRule R_sp ⋅ PRule r' /\ entry' r').
  { destruct Hr as [-> | ->]; eexists; (split; [reflexivity|]); unfold entry'; auto. }
  destruct Hc as [r' [Hc Hr']].
  destruct n as [|n]; [discriminate|]. cbn [Peg.run] in Hx. rewrite Hc in Hx.
  destruct n as [|n]; [discriminate|]. cbn [Peg.run] in Hx.
  destruct (runc n (PRule R_sp) s) as [s1|s1| |]; try discriminate.
  destruct (runc n (PRule r') s1) as [s2|s2| |] eqn:H2; try discriminate. injection Hx as <-.
  eapply last_thunk'; eauto.
Qed.

(** ** The end-of-input action *)
Fixpoint stmt_has (f : stmt -> bool) (s : stmt) : bool :=
  f s || match s with SIfNotIdent _ s => stmt_has f s | _ => false end.
Definition act_has (f : stmt -> bool) (t : action) : bool :=
  match t with TDo l => existsb (stmt_has f) l | _ => false end.
Definition is_seof (s : stmt) : bool := match s with SEof => true | _ => false end.
Definition is_sfinished (s : stmt) : bool := match s with SFinished => true | _ => false end.
Definition is_sresult (s : stmt) : bool := match s with SResult _ => true | _ => false end.
Definition sets_eof (t : action) : bool := act_has is_seof t.

Fixpoint no_eof (e : cexp) : bool :=
  match e with
  | PDot | PChar _ | PStr _ | PClass _ | PRule _ => true
  | PSeq e1 e2 | PAlt e1 e2 => no_eof e1 && no_eof e2
  | PStar e | PPlus e | PQuery e | PAnd e | PNot e => no_eof e
  | PAct a => negb (sets_eof a)
  | PPred (QDo a) => negb (sets_eof a)
  | PPred _ => true
  | PErr e q => no_eof e && match q with QDo a => negb (sets_eof a) | _ => true end
  end.

Definition eof_thunks (s : pst action cuser) : Prop :=
  forall t p, In (t, p) (thunks s) -> sets_eof t = true -> len <= pos s.

Lemma no_eof_ok : forall r, r <> R_EOF -> no_eof (CG r) = true.
Proof.
  intros r Hr. assert (H : forallb (fun r => match r with R_EOF => true | _ => no_eof (CG r) end) all_rules = true)
    by (vm_compute; reflexivity).
  rewrite forallb_forall in H. specialize (H r (all_rules_complete r)).
  destruct r; try exact H. congruence.
Qed.

Lemma in_add_thunks : forall l (s : pst action cuser) x, In x (add_thunks l s) ->
  In (fst x) l \/ In x (thunks s).
Proof.
  intros l s x. unfold add_thunks. generalize (thunks s).
  induction l as [|a l IH]; intros acc H; cbn in H; [auto|].
  destruct (IH _ H) as [H1|[<-|H1]]; cbn; auto.
Qed.

Lemma run_pred_eof : forall q s s', match q with QDo a => negb (sets_eof a) | _ => true end = true ->
  eof_thunks s -> run_pred get (cprun col off) q s = ROk s' -> eof_thunks s'.
Proof.
  intros q s s' Hq Hs Hx. unfold run_pred in Hx.
  destruct (cprun col off q (pos s) (get (pos s)) (user s)) as [[[b u] l]|] eqn:Hc; [|discriminate].
  destruct b; [|discriminate]. injection Hx as <-.
  assert (Hl : forall t, In t l -> sets_eof t = false).
  { intros t Ht. destruct q; cbn [cprun] in Hc;
      try (destruct (c_op (user s)); [|discriminate]);
      try (destruct (do_err _ _ _ _ _); [|discriminate]);
      injection Hc; intros; subst; try destruct Ht as [<-|[]]; try contradiction.
    apply negb_true_iff. exact Hq. }
  intros t p Hin He. cbn [thunks pos] in *. apply in_add_thunks in Hin.
  destruct Hin as [Hin|Hin]; [|eapply Hs; eauto]. exfalso.
  rewrite (Hl t) in He; [discriminate|auto].
Qed.

Lemma eof_sound : forall n e s s', no_eof e = true -> eof_thunks s -> runc n e s = ROk s' -> eof_thunks s'.
Proof.
  induction n as [|n IH]; intros e s s' He Hs Hx; [discriminate|].
  assert (Mono : forall s1 s2, thunks s2 = thunks s1 -> pos s1 <= pos s2 -> eof_thunks s1 -> eof_thunks s2).
  { intros s1 s2 H1 H2 H3 t p Hin Ht. rewrite H1 in Hin. specialize (H3 t p Hin Ht). lia. }
  pose proof (run_ok_pos _ _ _ _ _ _ _ Hx) as Hle.
  destruct e; cbn [no_eof] in He; cbn [Peg.run] in Hx.
  - destruct (get (pos s)); [|discriminate]. injection Hx as <-. apply (Mono s); auto.
  - destruct (get (pos s)); [destruct (beq c a)|]; try discriminate. injection Hx as <-. apply (Mono s); auto.
  - destruct (match_str get s0 (pos s) (pos s)); [|discriminate]. injection Hx as <-. apply (Mono s); auto.
  - destruct (get (pos s)); [destruct (in_class cs a)|]; try discriminate. injection Hx as <-. apply (Mono s); auto.
  - assert (r = R_EOF \/ r <> R_EOF) as [->|Hr] by (destruct r; auto; right; discriminate).
    + destruct (runc n (CG R_EOF) s) as [s1|s1| |] eqn:Hx1; try discriminate. injection Hx as <-.
      change (CG R_EOF) with (PNot (@PDot rule action pred) ⋅ PAct (TDo [SEof])) in Hx1.
      destruct n as [|n]; [discriminate|]. cbn [Peg.run] in Hx1.
      destruct n as [|n]; [discriminate|]. cbn [Peg.run] in Hx1.
      destruct n as [|n]; [discriminate|]. cbn [Peg.run] in Hx1.
      destruct (get (pos s)) eqn:Hg; [discriminate|]. injection Hx1 as <-.
      intros t p _ _. cbn [pos restore].
      destruct (Nat.lt_ge_cases (pos s) len) as [Hlt|]; [|lia].
      apply (get_len inp) in Hlt. congruence.
    + destruct (runc n (CG r) s) as [s1|s1| |] eqn:Hx1; try discriminate. injection Hx as <-.
      eapply IH; eauto. apply no_eof_ok. exact Hr.
  - apply andb_true_iff in He. destruct He as [He1 He2].
    destruct (runc n e1 s) as [s1|s1| |] eqn:H1; try discriminate.
    exact (IH e2 s1 _ He2 (IH e1 s _ He1 Hs H1) Hx).
  - apply andb_true_iff in He. destruct He as [He1 He2].
    destruct (runc n e1 s) as [s1|s1| |] eqn:H1; try discriminate.
    + injection Hx as <-. exact (IH e1 s _ He1 Hs H1).
    + exact (IH e2 (restore s s1) _ He2 Hs Hx).
  - destruct (runc n e s) as [s1|s1| |] eqn:H1; try discriminate.
    + exact (IH (PStar e) s1 _ He (IH e s _ He Hs H1) Hx).
    + injection Hx as <-. exact Hs.
  - destruct (runc n e s) as [s1|s1| |] eqn:H1; try discriminate.
    exact (IH (PStar e) s1 _ He (IH e s _ He Hs H1) Hx).
  - destruct (runc n e s) as [s1|s1| |] eqn:H1; try discriminate.
    + injection Hx as <-. exact (IH e s _ He Hs H1).
    + injection Hx as <-. exact Hs.
  - destruct (runc n e s) as [s1|s1| |] eqn:H1; try discriminate. injection Hx as <-. exact Hs.
  - destruct (runc n e s) as [s1|s1| |] eqn:H1; try discriminate. injection Hx as <-. exact Hs.
  - injection Hx as <-. intros t p Hin Ht. cbn [thunks pos] in *. 
    destruct Hin as [Hin|Hin]; [|eapply Hs; eauto]. injection Hin as <- <-.
    rewrite Ht in He. discriminate.
  - eapply run_pred_eof; eauto.
  - apply andb_true_iff in He. destruct He as [He1 He2].
    destruct (runc n e s) as [s1|s1| |] eqn:H1; try discriminate.
    + injection Hx as <-. exact (IH e s _ He1 Hs H1).
    + destruct (run_pred get (cprun col off) q s1); discriminate.
Qed.

(** the list of line starts always holds the start of the input *)
Definition has_zero (u : cuser) : Prop := In 0 (c_lines u).

Lemma backtrack_zero : forall l p, In 0 l -> In 0 (backtrack l p).
Proof.
  induction l as [|t l IH]; intros p H; [exact H|]. cbn [backtrack].
  destruct (Nat.ltb_spec p t); [|exact H]. apply IH. destruct H as [->|H]; [lia|exact H].
Qed.

Lemma cprun_zero : forall q p c u b u' l, cprun col off q p c u = Some (b, u', l) -> has_zero u -> has_zero u'.
Proof.
  intros q p c u b u' l H Hz. unfold has_zero in *.
  destruct q; cbn [cprun] in H;
      try (destruct (c_op u); [|discriminate]);
      try (injection H; intros; subst; exact Hz).
  - injection H; intros; subst. cbn [c_lines set_lines]. unfold line_start.
    repeat match goal with |- context [if ?x then _ else _] => destruct x end;
      try (right); try apply backtrack_zero; exact Hz.
  - destruct (do_err off p c label u) as [v|] eqn:E; [|discriminate]. injection H; intros; subst.
    unfold do_err in E. destruct (input_position _ _ _); [|discriminate].
    destruct (et_note _ _ _ _); [|discriminate]. injection E as <-. cbn. apply backtrack_zero. exact Hz.
Qed.

Lemma run_zero : forall n e s, has_zero (user s) ->
  match runc n e s with ROk s' | RFail s' => has_zero (user s') | _ => True end.
Proof.
  assert (PR : forall q s, has_zero (user s) -> match run_pred get (cprun col off) q s with
     ROk s' | RFail s' => has_zero (user s') | _ => True end).
  { intros q s Hz. unfold run_pred. destruct (cprun col off q (pos s) (get (pos s)) (user s)) as [[[b u] l]|] eqn:E; [|exact I].
    pose proof (cprun_zero _ _ _ _ _ _ _ E Hz). destruct b; exact H. }
  induction n as [|n IH]; intros e s Hz; [exact I|].
  destruct e; cbn [Peg.run].
  - destruct (get (pos s)); auto.
  - destruct (get (pos s)); [destruct (beq c a)|]; auto.
  - destruct (match_str get s0 (pos s) (pos s)); auto.
  - destruct (get (pos s)); [destruct (in_class cs a)|]; auto.
  - pose proof (IH (CG r) s Hz) as H. destruct (runc n (CG r) s); auto.
  - pose proof (IH e1 s Hz) as H. destruct (runc n e1 s) as [s1|s1| |]; auto. apply (IH e2 s1 H).
  - pose proof (IH e1 s Hz) as H. destruct (runc n e1 s) as [s1|s1| |]; auto. apply (IH e2 (restore s s1) H).
  - pose proof (IH e s Hz) as H. destruct (runc n e s) as [s1|s1| |]; auto. apply (IH (PStar e) s1 H).
  - pose proof (IH e s Hz) as H. destruct (runc n e s) as [s1|s1| |]; auto. apply (IH (PStar e) s1 H).
  - pose proof (IH e s Hz) as H. destruct (runc n e s) as [s1|s1| |]; auto.
  - pose proof (IH e s Hz) as H. destruct (runc n e s) as [s1|s1| |]; auto.
  - pose proof (IH e s Hz) as H. destruct (runc n e s) as [s1|s1| |]; auto.
  - exact Hz.
  - apply PR. exact Hz.
  - pose proof (IH e s Hz) as H. destruct (runc n e s) as [s1|s1| |]; auto.
    pose proof (PR q s1 H) as H2. destruct (run_pred get (cprun col off) q s1); auto.
Qed.

End Match.

Lemma find_line_zero : forall l p, In 0 l -> exists d t, find_line l p = Some (d, t).
Proof.
  induction l as [|t l IH]; intros p H; [contradiction|]. cbn [find_line].
  destruct (Nat.ltb_spec p t); [|eauto]. destruct H as [->|H]; [lia|]. apply IH. exact H.
Qed.

(** ** Actions *)

Lemma exec_app : forall e l1 l2 a, exec e (l1 ++ l2) a = xbind (exec e l1 a) (exec e l2).
Proof.
  induction l1 as [|[t p] l1 IH]; intros l2 a; [reflexivity|]. cbn [app exec].
  destruct (exec_action e t p a); cbn [xbind]; auto.
Qed.

Lemma exec_consumed : forall e ts p a a', exec e (ts ++ [(TDo [SFinished], p)]) a = XOk a' ->
  a_consumed a' = e_pos e.
Proof.
  intros e ts p a a' H. rewrite exec_app in H. destruct (exec e ts a) as [a1| | |]; try discriminate.
  cbn in H. unfold do_finished in H. destruct (fill_contexts e (rev (a_errs a1))); try discriminate.
  cbn in H. injection H as <-. reflexivity.
Qed.

(** the fields that only particular statements change *)
Definition frame (f1 f2 f3 : bool) (a a' : astate) : Prop :=
  (f1 = false -> a_eof a' = a_eof a) /\
  (f2 = false -> a_errs a' = a_errs a) /\
  (f3 = false -> a_result a' = a_result a).

Lemma frame_refl : forall f1 f2 f3 a, frame f1 f2 f3 a a.
Proof. repeat split. Qed.

Lemma frame_trans : forall f1 f2 f3 g1 g2 g3 a b c, frame f1 f2 f3 a b -> frame g1 g2 g3 b c ->
  frame (f1 || g1) (f2 || g2) (f3 || g3) a c.
Proof.
  intros f1 f2 f3 g1 g2 g3 a b c [A1 [A2 A3]] [B1 [B2 B3]].
  repeat split; intros H; apply orb_false_iff in H; destruct H.
  - rewrite B1, A1; auto.
  - rewrite B2, A2; auto.
  - rewrite B3, A3; auto.
Qed.

Ltac xinv H :=
  repeat match type of H with
  | xbind ?x _ = XOk _ => let E := fresh "E" in destruct x eqn:E; cbn [xbind] in H; try discriminate H
  end.
Ltac fr := injection 1; intros; subst; repeat split; intros; reflexivity.

Lemma close_block_frame : forall e p a r, close_block e p a = XOk r -> frame false false false a (snd r).
Proof.
  intros e p a r H. unfold close_block in H. xinv H. destruct (a_blocks a); [discriminate|].
  destruct (_ && _ && _); [|discriminate]. revert H. fr.
Qed.

Lemma do_build_frame : forall e c l a r, do_build e c l a = XOk r -> frame false false false a (snd r).
Proof.
  intros e c l a r H. unfold do_build in H. destruct (a_prev a) as [b|]; [|discriminate].
  destruct (build_call c) as [ty bps]. destruct (eval_bparams _ _ _ _ _ _) as [[ps ops]|]; [|discriminate].
  destruct (terminal ty && nonempty (b_kids b)); [discriminate|].
  destruct (construct _ _ _ _ _); [|discriminate]. destruct (a_blocks a); [discriminate|].
  revert H. fr.
Qed.

Lemma eval_rhs_frame : forall e r a x, eval_rhs e r a = XOk x -> frame false false false a (snd x).
Proof.
  intros e [x|c l] a r H; cbn [eval_rhs] in H; xinv H; [revert H; fr|].
  injection H as <-. cbn [snd]. eapply do_build_frame; eauto.
Qed.

Lemma put_slot_frame : forall k v a a', put_slot k v a = XOk a' -> frame false false false a a'.
Proof.
  intros k v a a' H. unfold put_slot in H. destruct (a_frames a); [discriminate|].
  destruct (upd l k (Some v)); [|discriminate]. revert H. fr.
Qed.

Lemma exec_stmt_frame : forall e s a a', exec_stmt e s a = XOk a' ->
  frame (stmt_has is_seof s) (stmt_has is_sfinished s) (stmt_has is_sresult s) a a'.
Proof.
  intros e s. induction s as [|x|x| |s| | |o|r|l r|x s IH]; intros a a' H; cbn [exec_stmt] in H;
    cbn [stmt_has is_seof is_sfinished is_sresult orb].
  - unfold do_finished in H. xinv H. injection H as <-. repeat split; intros; congruence || reflexivity.
  - xinv H. injection H as <-. repeat split; intros; congruence || reflexivity.
  - xinv H. unfold do_seq_add in H. destruct x0; [|discriminate]. destruct (a_blocks a); [discriminate|].
    revert H. fr.
  - revert H. fr.
  - revert H. fr.
  - destruct (a_prev a); [|discriminate]. revert H. fr.
  - injection H as <-. repeat split; intros; congruence || reflexivity.
  - revert H. fr.
  - xinv H. injection H as <-. eapply eval_rhs_frame; eauto.
  - destruct l as [|k]; xinv H.
    + injection H as <-. apply eval_rhs_frame in E. destruct E as [E1 [E2 E3]]. repeat split; intros; cbn; auto.
    + apply eval_rhs_frame in E. apply put_slot_frame in H. exact (frame_trans _ _ _ _ _ _ _ _ _ E H).
  - xinv H. destruct (match x0 with Some _ => _ | None => _ end); [injection H as <-; apply frame_refl|].
    apply IH. exact H.
Qed.

Lemma exec_action_frame : forall e t p a a', exec_action e t p a = XOk a' ->
  frame (act_has is_seof t) (act_has is_sfinished t) (act_has is_sresult t) a a'.
Proof.
  intros e t p a a' H. destruct t as [n|n|k| | | | |l]; cbn [exec_action act_has] in *.
  - revert H. fr.
  - revert H. fr.
  - eapply put_slot_frame; eauto.
  - unfold do_block_start in H. xinv H. injection H as <-. destruct (a_prev a); repeat split; intros; reflexivity.
  - unfold do_block_end in H. xinv H. injection H as <-. eapply close_block_frame; eauto.
  - unfold do_block_replace in H. xinv H. apply close_block_frame in E. destruct x as [[b ps] a1].
    injection H as <-. destruct E as [E1 [E2 E3]]. repeat split; intros; cbn; auto.
  - unfold do_block_merge in H. xinv H. apply close_block_frame in E. destruct x as [[b ps] a1].
    destruct (b_kids b); [injection H as <-; exact E|].
    destruct (a_blocks a1); [discriminate|]. injection H as <-.
    destruct E as [E1 [E2 E3]]. repeat split; intros; cbn; auto.
  - revert a H. induction l as [|s l IH]; intros a H; cbn [exec_stmts] in H; [injection H as <-; apply frame_refl|].
    xinv H. cbn [existsb]. apply exec_stmt_frame in E. exact (frame_trans _ _ _ _ _ _ _ _ _ E (IH _ H)).
Qed.

Lemma exec_frame : forall e ts a a', exec e ts a = XOk a' ->
  frame (existsb (fun t => act_has is_seof (fst t)) ts) (existsb (fun t => act_has is_sfinished (fst t)) ts)
        (existsb (fun t => act_has is_sresult (fst t)) ts) a a'.
Proof.
  intros e. induction ts as [|[t p] ts IH]; intros a a' H; cbn [exec] in H; [injection H as <-; apply frame_refl|].
  xinv H. apply exec_action_frame in E. cbn [existsb fst]. exact (frame_trans _ _ _ _ _ _ _ _ _ E (IH _ _ H)).
Qed.

(** ** The round *)

Record round_facts (cf : config) (r : rule) (inp : bytes) (y : carry)
    (p : nat) (lines : list nat) (a : astate) (u : cuser) : Prop := {
  rf_pos : p <= List.length inp;
  rf_progress : inp <> [] -> 0 < p;
  rf_consumed : a_consumed a = p;
  rf_eof : a_eof a = true -> p = List.length inp;
  rf_zero : In 0 lines }.

Lemma parse_one_eq : forall cf la r inp y, parse_one cf la r inp y =
  finish_one cf la inp y (crun (cf_color cf) (y_off y) (cfuel inp) inp (PRule r) (match_start y)).
Proof. reflexivity. Qed.

(** what [finish_one] accepted *)
Lemma finish_one_ok : forall cf la inp y m p lines a u,
  finish_one cf la inp y m = RdOk p lines a u ->
  exists s, m = ROk s /\ p = pos s /\ lines = c_lines (user s) /\ u = user s /\
    exec (mkxe inp (la inp (pos s)) (y_off y) (c_lines (user s)) (pos s)) (rev (thunks s))
      (mkas [] (y_ret y) [top_block (cf_position cf)] None [] (y_sb y) None false
            (y_consumed y) (et_errs (c_et (user s))) (y_fresh y) []) = XOk a /\
    (exists b, a_blocks a = [b] /\ b_top b = true /\ b_seq b = []) /\
    a_prev a = None /\ a_ops a = [] /\ c_precs (user s) = [].
Proof.
  intros cf la inp y m p lines a u H. unfold finish_one in H. destruct m as [s| | |]; try discriminate.
  destruct (exec _ (rev (thunks s)) _) as [a1| | |] eqn:He; try discriminate.
  destruct (a_blocks a1) as [|b [|]] eqn:Eb; try discriminate.
  destruct (b_top b && negb (nonempty (b_seq b)) && match a_prev a1 with None => true | Some _ => false end
    && negb (nonempty (a_ops a1)) && negb (nonempty (c_precs (user s)))) eqn:Hc; [|discriminate].
  injection H as <- <- <- <-.
  repeat (apply andb_true_iff in Hc; destruct Hc as [Hc ?]).
  exists s. do 4 (split; [reflexivity|]). split; [exact He|].
  split; [exists b; split; [auto|split; [auto|destruct (b_seq b); [reflexivity|discriminate]]]|].
  split; [destruct (a_prev a1); [discriminate|reflexivity]|].
  split; [destruct (a_ops a1); [reflexivity|discriminate]|].
  destruct (c_precs (user s)); [reflexivity|discriminate].
Qed.

Lemma round_ok : forall cf la r inp y p lines a u, entry r ->
  parse_one cf la r inp y = RdOk p lines a u -> round_facts cf r inp y p lines a u.
Proof.
  intros cf la r inp y p lines a u Hr H. rewrite parse_one_eq in H.
  apply finish_one_ok in H. revert H. unfold crun. generalize (cfuel inp).
  intros k [s [Hx [-> [-> [-> [He _]]]]]].
  destruct (last_thunk _ _ _ _ _ _ _ Hr Hx) as [ts Hts].
  assert (Hb : pos s <= List.length inp) by exact (match_bound _ _ _ _ _ (match_start y) s (Nat.le_0_l _) Hx).
  split.
  - exact Hb.
  - intros Hn. change 0 with (pos (match_start y)).
    eapply match_progress; [exact Hr| |exact Hx]. destruct inp; [congruence|apply Nat.lt_0_succ].
  - rewrite Hts in He. cbn [rev] in He. apply exec_consumed in He. exact He.
  - intros Heof. apply exec_frame in He. destruct He as [He _]. cbn [a_eof] in He.
    destruct (existsb (fun t => act_has is_seof (fst t)) (rev (thunks s))) eqn:Ex.
    + apply existsb_exists in Ex. destruct Ex as [[t q] [Hin Ht]]. apply in_rev in Hin. cbn in Ht.
      assert (eof_thunks inp s) as HE.
      { eapply (eof_sound (cf_color cf) (y_off y) inp _ _ (match_start y)); [|intros ? ? []|exact Hx]. reflexivity. }
      pose proof (HE t q Hin Ht). lia.
    + rewrite (He eq_refl) in Heof. discriminate.
  - pose proof (run_zero (cf_color cf) (y_off y) inp k (PRule r) (match_start y)) as Hz.
    rewrite Hx in Hz. apply Hz. left. reflexivity.
Qed.

(** the round on the empty input *)
Lemma crun_nil : forall r col off op et, entry r ->
  crun col off (cfuel []) [] (PRule r) (mkst 0 [] (mkcu [0] [] op et)) =
  ROk (mkst 0 [(TDo [SFinished], 0); (TPop 1, 0); (TDo [SResult ANull], 0); (TDo [SEof], 0); (TPush 1, 0)]
         (mkcu [0] [] op et)).
Proof. intros r col off op et [-> | ->]; vm_compute; reflexivity. Qed.

Lemma round_nil : forall cf la r y, entry r -> et_errs (y_et y) = [] ->
  exists lines a u, parse_one cf la r [] y = RdOk 0 lines a u /\
    a_result a = None /\ a_errs a = [] /\ a_eof a = true /\ a_consumed a = 0.
Proof.
  intros cf la r y Hr H2. rewrite parse_one_eq. unfold match_start. rewrite (crun_nil r _ _ _ _ Hr).
  unfold finish_one. cbn [user c_et thunks c_lines pos rev app]. rewrite H2.
  cbn. do 3 eexists. split; [reflexivity|]. cbn. auto.
Qed.

(** Matching never rejects and never runs out of fuel. *)
Lemma round_total : forall cf la r inp y, entry r ->
  parse_one cf la r inp y <> RdFail /\ parse_one cf la r inp y <> RdFuel.
Proof.
  intros cf la r inp y Hr. rewrite parse_one_eq. unfold crun.
  pose proof (match_not_fuel (cf_color cf) (y_off y) inp r (match_start y) (Nat.le_0_l _)) as N1.
  pose proof (fun s' => match_not_fail (cf_color cf) (y_off y) inp (cfuel inp) r (match_start y) s' Hr) as N2.
  destruct (run CG (get_of inp) (cprun (cf_color cf) (y_off y)) (cfuel inp) (PRule r) (match_start y)) as [s|s| |] eqn:E.
  - unfold finish_one.
    repeat match goal with |- context [match ?x with _ => _ end] => destruct x; try (split; discriminate) end.
  - exfalso. eapply N2. reflexivity.
  - split; discriminate.
  - congruence.
Qed.
