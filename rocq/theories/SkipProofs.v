(** * Skipped input and reported errors *)
From Coq Require Import List Bool Arith Ascii String ZArith Lia Permutation.
From Verif Require Import Peg PegProofs PegMode QuickModel CypherSyntax CypherGrammar ErrModel CypherTables
  CypherMatch AstTypes AstModel AstProofs CypherBuild CypherExec CypherParse CypherRound CypherSpec NodeFacts CypherLoop
  CypherInv CypherChain NodeHeld FlowSound FlowRun SafeProofs SafeNodes TraceSpec TraceProofs.
Import ListNotations.
Open Scope peg_scope.
Opaque parse_one cfuel.
Strategy expand [crun].

(** ** Error tracking while matching *)
Definition errs (u : cuser) : list perror := et_errs (c_et u).
Definition labels (u : cuser) : list bytes := et_labels (c_et u).

(** there is something to report *)
Definition noted (u : cuser) : Prop := errs u <> [] \/ labels u <> [].
(** or the next failure will be noted, wherever it is *)
Definition ready (off : position) (u : cuser) : Prop :=
  noted u \/ (errs u = [] /\ labels u = [] /\ offset (et_pos (c_et u)) <= offset off).

Section Track.
Variables (col : coloring) (off : position).

Lemma note_labels : forall t p c l t', et_note t p c l = Some t' ->
  et_errs t' = et_errs t /\ (et_labels t <> [] -> et_labels t' <> []) /\
  (et_errs t = [] -> offset (et_pos t) <= offset p -> et_labels t' <> []).
Proof.
  intros t p c l t' H. unfold et_note in H.
  destruct ((offset p <? offset (et_pos t)) || (nonempty (et_errs t) && (offset p <=? et_last t))) eqn:E1.
  { injection H as <-. split; [reflexivity|]. split; [auto|]. intros E2 E3. rewrite E2 in E1. cbn in E1.
    rewrite orb_false_r in E1. apply Nat.ltb_lt in E1. lia. }
  clear E1.
  set (e1 := if negb (nonempty (et_labels t)) || (offset (et_pos t) <? offset p)
             then mket p c [] (et_errs t) (et_last t) else t) in *.
  assert (E : et_errs e1 = et_errs t) by (unfold e1; destruct (_ || _); reflexivity).
  destruct (_ && _) in H; [discriminate|].
  destruct (existsb (bytes_eqb l) (et_labels e1)) eqn:Ex; injection H as <-.
  - assert (et_labels e1 <> []) by (destruct (et_labels e1); [discriminate Ex|discriminate]). auto.
  - cbn. assert (et_labels e1 ++ [l] <> []) by (destruct (et_labels e1); discriminate). auto.
Qed.

Lemma do_err_facts : forall p c l u u', do_err off p c l u = Some u' ->
  errs u' = errs u /\ (labels u <> [] -> labels u' <> []) /\
  (errs u = [] -> offset (et_pos (c_et u)) <= offset off -> labels u' <> []).
Proof.
  intros p c l u u' H. unfold do_err in H.
  destruct (input_position off (backtrack (c_lines u) p) p) as [ps|] eqn:Ep; [|discriminate].
  destruct (et_note (c_et u) ps _ l) as [t|] eqn:Et; [|discriminate]. injection H as <-.
  apply note_labels in Et. destruct Et as (E1 & E2 & E3). unfold errs, labels. cbn [set_et set_lines c_et].
  split; [exact E1|]. split; [exact E2|]. intros H1 H2. apply E3; [exact H1|].
  unfold input_position in Ep. destruct (find_line _ p) as [[d ls]|]; [|discriminate]. injection Ep as <-. cbn. lia.
Qed.

Lemma record_facts : forall u, errs (set_et u (et_reify col (c_et u))) = errs u /\ labels u = [] /\
    set_et u (et_reify col (c_et u)) = u \/
  errs (set_et u (et_reify col (c_et u))) <> [].
Proof.
  intros u. unfold errs, labels, et_reify. cbn [set_et c_et].
  destruct (et_labels (c_et u)); [left; destruct u; auto|right]. cbn. destruct (et_errs (c_et u)); discriminate.
Qed.

Lemma cprun_errs : forall q p c u b u' l, cprun col off q p c u = Some (b, u', l) -> errs u <> [] -> errs u' <> [].
Proof.
  intros q p c u b u' l H E. destruct q; cbn [cprun] in H;
    try (injection H as _ <- _; exact E); try (destruct (c_op u); [injection H as _ <- _; exact E|discriminate]).
  - injection H as _ <- _. destruct (record_facts u) as [(-> & _)|K]; auto.
  - destruct (do_err off p c label u) eqn:Ed; [|discriminate]. injection H as _ <- _. apply do_err_facts in Ed.
    destruct Ed as [-> _]. exact E.
Qed.

Lemma cprun_noted : forall q p c u b u' l, cprun col off q p c u = Some (b, u', l) -> noted u -> noted u'.
Proof.
  intros q p c u b u' l H E. destruct q; cbn [cprun] in H;
    try (injection H as _ <- _; exact E); try (destruct (c_op u); [injection H as _ <- _; exact E|discriminate]).
  - injection H as _ <- _. destruct (record_facts u) as [(_ & _ & ->)|K]; [exact E|left; exact K].
  - destruct (do_err off p c label u) eqn:Ed; [|discriminate]. injection H as _ <- _. apply do_err_facts in Ed.
    destruct Ed as (E1 & E2 & _). unfold noted. rewrite E1. destruct E; auto.
Qed.

Lemma cprun_ready : forall q p c u b u' l, cprun col off q p c u = Some (b, u', l) -> ready off u -> ready off u'.
Proof.
  intros q p c u b u' l H [E|(E1 & E2 & E3)]; [left; eapply cprun_noted; eauto|].
  assert (R : ready off u) by (right; auto).
  destruct q; cbn [cprun] in H;
    try (injection H as _ <- _; exact R); try (destruct (c_op u); [injection H as _ <- _; exact R|discriminate]).
  - injection H as _ <- _. destruct (record_facts u) as [(_ & _ & ->)|K]; [exact R|left; left; exact K].
  - destruct (do_err off p c label u) eqn:Ed; [|discriminate]. injection H as _ <- _. apply do_err_facts in Ed.
    destruct Ed as (K1 & K2 & K3). left. right. auto.
Qed.

Lemma cprun_err : forall label p c u b u' l, cprun col off (QErr label) p c u = Some (b, u', l) -> ready off u -> noted u'.
Proof.
  intros label p c u b u' l H R. destruct R as [E|(E1 & E2 & E3)]; [eapply cprun_noted; eauto|].
  cbn in H. destruct (do_err off p c label u) eqn:Ed; [|discriminate]. injection H as _ <- _. apply do_err_facts in Ed.
  destruct Ed as (K1 & K2 & K3). right. auto.
Qed.

Lemma cprun_record : forall p c u b u' l, cprun col off QRecordError p c u = Some (b, u', l) -> noted u -> errs u' <> [].
Proof.
  intros p c u b u' l H N. injection H as _ <- _. destruct (record_facts u) as [(-> & K & _)|K]; [|exact K].
  destruct N as [N|N]; [exact N|congruence].
Qed.

Lemma cprun_norec : forall q p c u b u' l, q <> QRecordError -> cprun col off q p c u = Some (b, u', l) -> errs u' = errs u.
Proof.
  intros q p c u b u' l Hq H. destruct q; cbn [cprun] in H;
    try (injection H as _ <- _; reflexivity); try (destruct (c_op u); [injection H as _ <- _; reflexivity|discriminate]).
  - congruence.
  - destruct (do_err off p c label u) eqn:Ed; [|discriminate]. injection H as _ <- _. apply do_err_facts in Ed. apply Ed.
Qed.
End Track.

(** ** Invariants of the state under matching *)
Section Run.
Variables (col : coloring) (off : position) (inp : bytes).
Notation runc := (run CG (get_of inp) (cprun col off)).
Notation cst := (pst action cuser).

Lemma run_user : forall (P : cuser -> Prop),
  (forall q p c u b u' l, cprun col off q p c u = Some (b, u', l) -> P u -> P u') ->
  forall n e s, P (user s) -> match runc n e s with ROk s' | RFail s' => P (user s') | _ => True end.
Proof.
  intros P HP. induction n as [|n IH]; intros e s Hs; [exact I|].
  assert (Hpred : forall q s, P (user s) -> match run_pred (get_of inp) (cprun col off) q s with ROk s' | RFail s' => P (user s') | _ => True end).
  { intros q s0 H0. unfold run_pred. destruct (cprun col off q (pos s0) (get_of inp (pos s0)) (user s0)) as [[[v u] l]|] eqn:E; [|exact I].
    destruct v; exact (HP _ _ _ _ _ _ _ E H0). }
  destruct e; cbn [Peg.run].
  - destruct (get_of inp (pos s)); exact Hs.
  - destruct (get_of inp (pos s)) as [a|]; [destruct (beq c a)|]; exact Hs.
  - destruct (match_str _ _ _ _); exact Hs.
  - destruct (get_of inp (pos s)) as [a|]; [destruct (in_class cs a)|]; exact Hs.
  - specialize (IH (CG r) s Hs). destruct (runc n (CG r) s); exact IH.
  - pose proof (IH e1 s Hs) as H1. destruct (runc n e1 s) as [s1|s1| |]; try exact H1. exact (IH e2 s1 H1).
  - pose proof (IH e1 s Hs) as H1. destruct (runc n e1 s) as [s1|s1| |]; try exact H1. exact (IH e2 (restore s s1) H1).
  - pose proof (IH e s Hs) as H1. destruct (runc n e s) as [s1|s1| |]; try exact H1. exact (IH (PStar e) s1 H1).
  - pose proof (IH e s Hs) as H1. destruct (runc n e s) as [s1|s1| |]; try exact H1. exact (IH (PStar e) s1 H1).
  - pose proof (IH e s Hs) as H1. destruct (runc n e s) as [s1|s1| |]; exact H1.
  - pose proof (IH e s Hs) as H1. destruct (runc n e s) as [s1|s1| |]; exact H1.
  - pose proof (IH e s Hs) as H1. destruct (runc n e s) as [s1|s1| |]; exact H1.
  - exact Hs.
  - apply Hpred, Hs.
  - pose proof (IH e s Hs) as H1. destruct (runc n e s) as [s1|s1| |]; try exact H1.
    pose proof (Hpred q s1 H1) as H2. destruct (run_pred (get_of inp) (cprun col off) q s1); exact H2.
Qed.

Lemma run_errs : forall n e s s', errs (user s) <> [] -> runc n e s = ROk s' \/ runc n e s = RFail s' -> errs (user s') <> [].
Proof.
  intros n e s s' H [E|E]; pose proof (run_user (fun u => errs u <> []) (cprun_errs col off) n e s H) as K; rewrite E in K; exact K.
Qed.
Lemma run_noted : forall n e s s', noted (user s) -> runc n e s = ROk s' \/ runc n e s = RFail s' -> noted (user s').
Proof.
  intros n e s s' H [E|E]; pose proof (run_user noted (cprun_noted col off) n e s H) as K; rewrite E in K; exact K.
Qed.
Lemma run_ready : forall n e s s', ready off (user s) -> runc n e s = ROk s' \/ runc n e s = RFail s' -> ready off (user s').
Proof.
  intros n e s s' H [E|E]; pose proof (run_user (ready off) (cprun_ready col off) n e s H) as K; rewrite E in K; exact K.
Qed.

(** *** A failure is noted *)
(** rules that note something whenever they fail *)
Definition fn_rule (r : rule) : bool :=
  match r with R___directive | R___statement | R_SEMICOLON => true | _ => false end.
Fixpoint fnoted (e : cexp) : bool :=
  match e with
  | PRule r => fn_rule r
  | PSeq e1 e2 => fnoted e1 && fnoted e2
  | PAlt e1 e2 => fnoted e1 || fnoted e2
  | PStar _ | PQuery _ | PAct _ => true
  | PPred q => c_sq q
  | PErr _ (QErr _) => true
  | _ => false
  end.

Lemma fn_rules : forall r, fn_rule r = true -> fnoted (CG r) = true.
Proof. intros r H. destruct r; try discriminate H; vm_compute; reflexivity. Qed.

Lemma fnoted_sound : forall n e s s', ready off (user s) -> fnoted e = true -> runc n e s = RFail s' -> noted (user s').
Proof.
  induction n as [|n IH]; intros e s s' Hs He Hx; [discriminate|].
  destruct e; cbn [fnoted] in He; try discriminate He; cbn [Peg.run] in Hx.
  - destruct (runc n (CG r) s) as [s1|s1| |] eqn:E; try discriminate. injection Hx as <-. cbn.
    exact (IH _ _ _ Hs (fn_rules r He) E).
  - apply andb_prop in He. destruct He as [H1 H2]. destruct (runc n e1 s) as [s1|s1| |] eqn:E; try discriminate.
    + eapply IH; [|exact H2|exact Hx]. eapply run_ready; eauto.
    + injection Hx as <-. exact (IH _ _ _ Hs H1 E).
  - destruct (runc n e1 s) as [s1|s1| |] eqn:E; try discriminate.
    apply orb_prop in He. destruct He as [He|He].
    + eapply run_noted; [|right; exact Hx]. exact (IH _ _ _ Hs He E).
    + eapply IH; [|exact He|exact Hx]. cbn. eapply run_ready; eauto.
  - exfalso. clear - Hx. revert s s' Hx. revert e. induction n as [|n IH]; intros e s s' Hx; [discriminate|]. cbn [Peg.run] in *.
    match type of Hx with match ?u with _ => _ end = _ => destruct u as [s1|s1| |] end; try discriminate.
    exact (IH _ _ _ Hx).
  - destruct (runc n e s); discriminate.
  - discriminate.
  - unfold run_pred in Hx. destruct (cprun col off q (pos s) (get_of inp (pos s)) (user s)) as [[[[] u] l]|] eqn:E; try discriminate.
    exfalso. eapply c_sq_ok; [exact He|exact E].
  - destruct q; try discriminate He. destruct (runc n e s) as [s1|s1| |] eqn:E; try discriminate.
    unfold run_pred in Hx. destruct (cprun col off (QErr label) (pos s1) (get_of inp (pos s1)) (user s1)) as [[[v u] l]|] eqn:E1; try discriminate.
    assert (noted u) as N by (eapply cprun_err; [exact E1|eapply run_ready; eauto]).
    destruct v; injection Hx as <-; exact N.
Qed.

(** *** Input is skipped only after an error was recorded *)
Definition is_skip (t : action) : bool :=
  match t with TDo [SLet LRet (RMk K_skip [])] => true | _ => false end.
Definition skips (l : list (action * nat)) : bool := existsb (fun t => is_skip (fst t)) l.
Definition skip_rule (r : rule) : bool :=
  match r with R_skip_to_directive | R_skip_to_statement | R_skip_to_clause => true | _ => false end.

Fixpoint safe (pre : bool) (e : cexp) : bool :=
  match e with
  | PRule r => negb (skip_rule r)
  | PSeq (PRule R__error_) _ => pre
  | PSeq e1 e2 => safe pre e1 && safe pre e2
  | PAlt e1 e2 => safe pre e1 && safe (pre || fnoted e1) e2
  | PStar e | PPlus e | PQuery e | PErr e _ => safe pre e
  | PAct t | PPred (QDo t) => negb (is_skip t)
  | _ => true
  end.

Lemma safe_rules : forall r, skip_rule r = false -> safe false (CG r) = true.
Proof.
  assert (K : forallb (fun r => skip_rule r || safe false (CG r)) all_rules = true) by (vm_compute; reflexivity).
  intros r Hr. rewrite forallb_forall in K. specialize (K r (all_rules_complete r)). rewrite Hr in K. exact K.
Qed.

Definition covered (s : cst) : Prop := skips (thunks s) = true -> errs (user s) <> [].

Lemma covered_errs : forall s, errs (user s) <> [] -> covered s.
Proof. intros s H _. exact H. Qed.

Lemma skips_add : forall l (s : cst), skips (add_thunks l s) = existsb is_skip l || skips (thunks s).
Proof.
  intros l s. unfold add_thunks. generalize (thunks s). induction l as [|a l IH]; intros acc; [reflexivity|].
  cbn [fold_left]. rewrite IH. cbn. destruct (is_skip a), (existsb is_skip l); reflexivity.
Qed.

Lemma covered_restore : forall n e (s s1 : cst), covered s -> runc n e s = RFail s1 \/ runc n e s = ROk s1 -> covered (restore s s1).
Proof.
  intros n e s s1 H E K. cbn in *. eapply run_errs; [exact (H K)|destruct E; eauto].
Qed.

Lemma pred_thunks : forall q p c u b u' l, (match q with QDo t => negb (is_skip t) | _ => true end) = true ->
  cprun col off q p c u = Some (b, u', l) -> existsb is_skip l = false.
Proof.
  intros q p c u b u' l Hq H. destruct q; cbn [cprun] in H;
    try (injection H as _ _ <-; reflexivity); try (destruct (c_op u); [injection H as _ _ <-; reflexivity|discriminate]).
  - injection H as _ _ <-. cbn. destruct (is_skip a); [discriminate|reflexivity].
  - destruct (do_err off p c label u); [injection H as _ _ <-; reflexivity|discriminate].
Qed.

Lemma covered_pred : forall q s s', (match q with QDo t => negb (is_skip t) | _ => true end) = true -> covered s ->
  run_pred (get_of inp) (cprun col off) q s = ROk s' -> covered s'.
Proof.
  intros q s s' Hq Hs Hx. unfold run_pred in Hx.
  destruct (cprun col off q (pos s) (get_of inp (pos s)) (user s)) as [[[[] u] l]|] eqn:E; try discriminate.
  injection Hx as <-. unfold covered. cbn. rewrite skips_add, (pred_thunks _ _ _ _ _ _ _ Hq E). intros K.
  eapply cprun_errs; [exact E|exact (Hs K)].
Qed.

Lemma safe_sound : forall n e pre s s', ready off (user s) -> (pre = true -> noted (user s)) -> covered s -> safe pre e = true ->
  runc n e s = ROk s' -> covered s'.
Proof.
  induction n as [|n IH]; intros e pre s s' Hr Hp Hs He Hx; [discriminate|].
  assert (Hp' : forall e0 m s1, (runc m e0 s = ROk s1 \/ runc m e0 s = RFail s1) -> pre = true -> noted (user s1))
    by (intros e0 m s1 E1 E2; eapply run_noted; [exact (Hp E2)|exact E1]).
  assert (ST : forall e pre s s', ready off (user s) -> (pre = true -> noted (user s)) -> covered s -> safe pre e = true ->
                 runc n (PStar e) s = ROk s' -> covered s')
    by (intros e0 pre0 s0 s0' A1 A2 A3 A4 A5; eapply IH; [exact A1|exact A2|exact A3| |exact A5]; exact A4).
  destruct e; cbn [Peg.run] in Hx.
  - destruct (get_of inp (pos s)); [|discriminate]. injection Hx as <-. exact Hs.
  - destruct (get_of inp (pos s)) as [a|]; [destruct (beq c a)|]; try discriminate. injection Hx as <-. exact Hs.
  - destruct (match_str _ _ _ _); [|discriminate]. injection Hx as <-. exact Hs.
  - destruct (get_of inp (pos s)) as [a|]; [destruct (in_class cs a)|]; try discriminate. injection Hx as <-. exact Hs.
  - cbn [safe] in He. destruct (runc n (CG r) s) as [s1|s1| |] eqn:E; try discriminate. injection Hx as <-.
    eapply (IH (CG r) false); [exact Hr|discriminate|exact Hs|apply safe_rules; destruct (skip_rule r); [discriminate|reflexivity]|exact E].
  - assert (D : e1 = PRule R__error_ \/ safe pre (PSeq e1 e2) = safe pre e1 && safe pre e2).
    { destruct e1; try (right; reflexivity). destruct r; try (right; reflexivity). left. reflexivity. }
    destruct D as [->|D].
    + cbn [safe] in He. destruct (runc n (PRule R__error_) s) as [s1|s1| |] eqn:E; try discriminate.
      apply covered_errs. eapply run_errs; [|left; exact Hx].
      destruct n as [|n]; [discriminate|]. cbn [Peg.run] in E. destruct n as [|n]; [discriminate|]. cbn [Peg.run CG g__error_] in E.
      unfold run_pred in E. destruct (cprun col off QRecordError (pos s) (get_of inp (pos s)) (user s)) as [[[[] u] l]|] eqn:EP; try discriminate.
      injection E as <-. cbn. eapply cprun_record; [exact EP|exact (Hp He)].
    + rewrite D in He. apply andb_prop in He. destruct He as [H1 H2].
      destruct (runc n e1 s) as [s1|s1| |] eqn:E; try discriminate.
      eapply (IH e2 pre s1); [eapply run_ready; eauto|eapply Hp'; eauto|exact (IH _ _ _ _ Hr Hp Hs H1 E)|exact H2|exact Hx].
  - cbn [safe] in He. apply andb_prop in He. destruct He as [H1 H2].
    destruct (runc n e1 s) as [s1|s1| |] eqn:E; try discriminate.
    + injection Hx as <-. exact (IH _ _ _ _ Hr Hp Hs H1 E).
    + eapply (IH e2 (pre || fnoted e1) (restore s s1)); [| | |exact H2|exact Hx].
      * cbn. eapply run_ready; eauto.
      * intros K. cbn. apply orb_prop in K. destruct K as [K|K]; [eapply Hp'; eauto|eapply fnoted_sound; eauto].
      * eapply covered_restore; eauto.
  - cbn [safe] in He. destruct (runc n e s) as [s1|s1| |] eqn:E; try discriminate.
    + eapply (ST e pre s1); [eapply run_ready; eauto|eapply Hp'; eauto|exact (IH _ _ _ _ Hr Hp Hs He E)|exact He|exact Hx].
    + injection Hx as <-. eapply covered_restore; eauto.
  - cbn [safe] in He. destruct (runc n e s) as [s1|s1| |] eqn:E; try discriminate.
    eapply (ST e pre s1); [eapply run_ready; eauto|eapply Hp'; eauto|exact (IH _ _ _ _ Hr Hp Hs He E)|exact He|exact Hx].
  - cbn [safe] in He. destruct (runc n e s) as [s1|s1| |] eqn:E; try discriminate; injection Hx as <-.
    + exact (IH _ _ _ _ Hr Hp Hs He E).
    + eapply covered_restore; eauto.
  - destruct (runc n e s) as [s1|s1| |] eqn:E; try discriminate. injection Hx as <-. eapply covered_restore; eauto.
  - destruct (runc n e s) as [s1|s1| |] eqn:E; try discriminate. injection Hx as <-. eapply covered_restore; eauto.
  - injection Hx as <-. cbn [safe] in He. unfold covered in *. cbn. destruct (is_skip a); [discriminate|]. exact Hs.
  - eapply covered_pred; [|exact Hs|exact Hx]. destruct q; try reflexivity. exact He.
  - cbn [safe] in He. destruct (runc n e s) as [s1|s1| |] eqn:E; try discriminate.
    + injection Hx as <-. exact (IH _ _ _ _ Hr Hp Hs He E).
    + destruct (run_pred (get_of inp) (cprun col off) q s1); discriminate.
Qed.

(** *** A recorded error is followed by skipping *)
Notation len := (List.length inp).
Notation csure := (sure c_su c_sq c_st).

Lemma sure_run : forall n e s s', csure (modeof len (pos s)) e = true -> runc n e s <> RFail s'.
Proof.
  intros n e s s' H.
  eapply sure_sound with (su := c_su) (nl := c_nl) (sq := c_sq) (st := c_st)
    (rk := c_rk) (kmax := c_kmax) (m := c_m) (len := len); eauto using tables_ok.
  - apply get_len.
  - intros. apply c_sq_ok; auto.
Qed.

Definition sureb (e : cexp) : bool := csure NE e && csure AE e.
Lemma sureb_run : forall n e s s', sureb e = true -> runc n e s <> RFail s'.
Proof.
  intros n e s s' H. apply andb_prop in H. apply sure_run. destruct (modeof len (pos s)); tauto.
Qed.

(** rules in which no error is recorded *)
Definition nr_rule (r : rule) : bool :=
  match r with
  | R___entry_points | R_directive | R__directive | R___directive | R_statement | R__statement | R___statement
  | R_cypher_statement | R_query | R_clauses | R__clauses | R__error_ => false
  | _ => true
  end.
Fixpoint norec (e : cexp) : bool :=
  match e with
  | PRule r => nr_rule r
  | PSeq e1 e2 | PAlt e1 e2 => norec e1 && norec e2
  | PStar e | PPlus e | PQuery e | PAnd e | PNot e => norec e
  | PPred QRecordError => false
  | PErr e q => norec e && match q with QRecordError => false | _ => true end
  | _ => true
  end.

Lemma nr_rules : forall r, nr_rule r = true -> norec (CG r) = true.
Proof.
  assert (K : forallb (fun r => negb (nr_rule r) || norec (CG r)) all_rules = true) by (vm_compute; reflexivity).
  intros r Hr. rewrite forallb_forall in K. specialize (K r (all_rules_complete r)). rewrite Hr in K. exact K.
Qed.

Lemma norec_sound : forall n e s, norec e = true ->
  match runc n e s with ROk s' | RFail s' => errs (user s') = errs (user s) | _ => True end.
Proof.
  induction n as [|n IH]; intros e s He; [exact I|].
  assert (Hpred : forall q s, q <> QRecordError ->
    match run_pred (get_of inp) (cprun col off) q s with ROk s' | RFail s' => errs (user s') = errs (user s) | _ => True end).
  { intros q s0 H0. unfold run_pred. destruct (cprun col off q (pos s0) (get_of inp (pos s0)) (user s0)) as [[[v u] l]|] eqn:E; [|exact I].
    destruct v; exact (cprun_norec _ _ _ _ _ _ _ _ _ H0 E). }
  destruct e; cbn [norec] in He; cbn [Peg.run].
  - destruct (get_of inp (pos s)); reflexivity.
  - destruct (get_of inp (pos s)) as [a|]; [destruct (beq c a)|]; reflexivity.
  - destruct (match_str _ _ _ _); reflexivity.
  - destruct (get_of inp (pos s)) as [a|]; [destruct (in_class cs a)|]; reflexivity.
  - specialize (IH (CG r) s (nr_rules r He)). destruct (runc n (CG r) s); exact IH.
  - apply andb_prop in He. destruct He as [H1 H2]. pose proof (IH e1 s H1) as K. destruct (runc n e1 s) as [s1|s1| |]; try exact K.
    pose proof (IH e2 s1 H2) as K2. destruct (runc n e2 s1); try exact K2; congruence.
  - apply andb_prop in He. destruct He as [H1 H2]. pose proof (IH e1 s H1) as K. destruct (runc n e1 s) as [s1|s1| |]; try exact K.
    pose proof (IH e2 (restore s s1) H2) as K2. cbn [restore user] in K2. destruct (runc n e2 (restore s s1)); try exact K2; congruence.
  - pose proof (IH e s He) as K. destruct (runc n e s) as [s1|s1| |]; try exact K.
    pose proof (IH (PStar e) s1 He) as K2. destruct (runc n (PStar e) s1); try exact K2; congruence.
  - pose proof (IH e s He) as K. destruct (runc n e s) as [s1|s1| |]; try exact K.
    pose proof (IH (PStar e) s1 He) as K2. destruct (runc n (PStar e) s1); try exact K2; congruence.
  - pose proof (IH e s He) as K. destruct (runc n e s) as [s1|s1| |]; exact K.
  - pose proof (IH e s He) as K. destruct (runc n e s) as [s1|s1| |]; exact K.
  - pose proof (IH e s He) as K. destruct (runc n e s) as [s1|s1| |]; exact K.
  - reflexivity.
  - apply Hpred. intros ->. discriminate He.
  - apply andb_prop in He. destruct He as [H1 H2]. pose proof (IH e s H1) as K. destruct (runc n e s) as [s1|s1| |]; try exact K.
    assert (q <> QRecordError) as Hq by (intros ->; discriminate H2).
    pose proof (Hpred q s1 Hq) as K2. destruct (run_pred (get_of inp) (cprun col off) q s1); try exact K2; congruence.
Qed.

Definition recovery (e : cexp) : option (rule * cexp) :=
  match e with
  | PSeq (PRule R__error_) (PSeq (PAlt (PRule R_EOF) (PRule k)) c) => Some (k, c)
  | _ => None
  end.

Fixpoint rsafe (ne : bool) (e : cexp) : bool :=
  match e with
  | PRule R__error_ => false
  | PSeq (PRule R__error_) (PSeq (PAlt (PRule R_EOF) (PRule k)) c) => ne && skip_rule k && sureb c
  | PSeq e1 e2 => rsafe ne e1 && rsafe false e2 && (norec e1 || sureb e2)
  | PAlt e1 e2 => rsafe ne e1 && rsafe (ne || csure AE e1) e2
  | PStar e | PPlus e | PAnd e | PNot e => norec e
  | PQuery e => rsafe ne e
  | PPred QRecordError => false
  | PErr e q => rsafe ne e && match q with QRecordError => false | _ => true end
  | _ => true
  end.

Lemma rsafe_rules : forall r, r <> R__error_ -> rsafe false (CG r) = true.
Proof.
  assert (K : forallb (fun r => match r with R__error_ => true | _ => rsafe false (CG r) end) all_rules = true) by (vm_compute; reflexivity).
  intros r Hr. rewrite forallb_forall in K. specialize (K r (all_rules_complete r)). destruct r; try exact K. congruence.
Qed.

Definition backed (s : cst) : Prop := errs (user s) <> [] -> skips (thunks s) = true.

Lemma run_thunks_grow : forall n e s s', runc n e s = ROk s' -> skips (thunks s) = true -> skips (thunks s') = true.
Proof.
  intros n e s s' Hx H. destruct (run_leaves _ _ _ _ (adapted_CG _ _ _) _ _ _ _ Hx) as [l [_ L]].
  rewrite L. unfold skips. rewrite existsb_app. fold (skips (thunks s)). rewrite H. apply orb_true_r.
Qed.

Lemma skip_run : forall k n s s', skip_rule k = true -> runc n (PRule k) s = ROk s' -> skips (thunks s') = true.
Proof.
  assert (W : forall a b c d (t : action) n s s', runc n (a ⋅ b ⋅ c ⋅ d ⋅ PAct t : cexp) s = ROk s' -> is_skip t = true ->
    skips (thunks s') = true).
  { intros a b c d t n s s' H Ht.
    do 4 (apply run_seq in H; destruct H as [? [? [_ [_ H]]]]). apply run_act in H. destruct H as [_ H].
    rewrite H. cbn. rewrite Ht. reflexivity. }
  intros k n s s' Hk Hx. destruct n as [|n]; [discriminate|]. cbn [Peg.run] in Hx.
  destruct (runc n (CG k) s) as [s1|s1| |] eqn:E; try discriminate. injection Hx as <-.
  destruct k; try discriminate Hk; (eapply W; [exact E|reflexivity]).
Qed.

Lemma eof_run : forall n s s', pos s < len -> runc n (PRule R_EOF) s <> ROk s'.
Proof.
  intros n s s' Hp Hx. destruct n as [|n]; [discriminate|]. cbn [Peg.run] in Hx. destruct n as [|n]; [discriminate|].
  cbn [Peg.run CG g_EOF] in Hx. destruct n as [|n]; [discriminate|]. cbn [Peg.run] in Hx.
  destruct n as [|n]; [discriminate|]. cbn [Peg.run] in Hx. unfold get_of in Hx.
  destruct (nth_error inp (pos s)) eqn:E; [|apply nth_error_None in E; lia]. discriminate.
Qed.

Lemma rsafe_sound : forall n e ne s, rsafe ne e = true -> (ne = true -> pos s < len) -> backed s ->
  match runc n e s with
  | ROk s' => backed s'
  | RFail s' => errs (user s') <> [] -> errs (user s) <> []
  | _ => True
  end.
Proof.
  induction n as [|n IH]; intros e ne s He Hne Hb; [exact I|].
  assert (NR : forall e s, norec e = true -> backed s ->
    match runc n e s with ROk s' => backed s' /\ (errs (user s') <> [] -> errs (user s) <> [])
    | RFail s' => errs (user s') <> [] -> errs (user s) <> [] | _ => True end).
  { intros e0 s0 H0 B0. pose proof (norec_sound n e0 s0 H0) as K. destruct (runc n e0 s0) as [s1|s1| |] eqn:E; auto.
    - split; [|rewrite K; auto]. intros K1. rewrite K in K1. eapply run_thunks_grow; eauto.
    - rewrite K. auto. }
  assert (ST : forall e s, norec e = true -> backed s ->
    match runc n (PStar e) s with ROk s' => backed s' | RFail s' => errs (user s') <> [] -> errs (user s) <> [] | _ => True end).
  { intros e0 s0 H0 B0. pose proof (NR (PStar e0) s0 H0 B0) as K. destruct (runc n (PStar e0) s0); tauto. }
  destruct e; cbn [Peg.run].
  - destruct (get_of inp (pos s)); auto.
  - destruct (get_of inp (pos s)) as [a|]; [destruct (beq c a)|]; auto.
  - destruct (match_str _ _ _ _); auto.
  - destruct (get_of inp (pos s)) as [a|]; [destruct (in_class cs a)|]; auto.
  - assert (r <> R__error_) as Hr by (intros ->; discriminate He).
    pose proof (IH (CG r) false s (rsafe_rules r Hr) ltac:(discriminate) Hb) as K. destruct (runc n (CG r) s); exact K.
  - destruct (recovery (PSeq e1 e2)) as [[k c]|] eqn:ER.
    + assert (e1 = PRule R__error_ /\ e2 = PSeq (PAlt (PRule R_EOF) (PRule k)) c) as [-> ->].
      { destruct e1; try discriminate ER. destruct r; try discriminate ER. destruct e2; try discriminate ER.
        destruct e2_1; try discriminate ER. destruct e2_1_1; try discriminate ER. destruct r; try discriminate ER.
        destruct e2_1_2; try discriminate ER. cbn in ER. injection ER as <- <-. auto. }
      cbn [rsafe] in He. apply andb_prop in He. destruct He as [He Hc]. apply andb_prop in He. destruct He as [Hn Hk].
      specialize (Hne Hn).
      destruct (runc n (PRule R__error_) s) as [s1|s1| |] eqn:E1; auto.
      * assert (pos s1 = pos s) as P1.
        { destruct n as [|n]; [discriminate|]. cbn [Peg.run] in E1. destruct n as [|n]; [discriminate|].
          cbn [Peg.run CG g__error_] in E1. unfold run_pred in E1. cbn in E1. injection E1 as <-. reflexivity. }
        destruct n as [|n]; [discriminate|]. cbn [Peg.run].
        destruct (runc n (PAlt (PRule R_EOF) (PRule k)) s1) as [s2|s2| |] eqn:E2; auto.
        -- assert (skips (thunks s2) = true) as K2.
           { destruct n as [|n]; [discriminate|]. cbn [Peg.run] in E2.
             destruct (runc n (PRule R_EOF) s1) as [s3|s3| |] eqn:E3; try discriminate.
             - exfalso. apply (eof_run n s1 s3); [lia|exact E3].
             - eapply skip_run; eauto. }
           destruct (runc n c s2) as [s3|s3| |] eqn:E3; auto.
           ++ intros _. eapply run_thunks_grow; eauto.
           ++ exfalso. eapply sureb_run; eauto.
        -- exfalso. eapply (sure_run n (PAlt (PRule R_EOF) (PRule k)) s1 s2); [|exact E2].
           unfold modeof. destruct (Nat.ltb_spec (pos s1) len); [|lia].
           destruct k; try discriminate Hk; reflexivity.
      * exfalso. destruct n as [|n]; [discriminate|]. cbn [Peg.run] in E1. destruct n as [|n]; [discriminate|].
        cbn [Peg.run CG g__error_] in E1. unfold run_pred in E1. cbn in E1. discriminate.
    + assert (rsafe ne (PSeq e1 e2) = rsafe ne e1 && rsafe false e2 && (norec e1 || sureb e2)) as D.
      { destruct e1; try reflexivity. destruct r; try reflexivity. destruct e2; try reflexivity.
        destruct e2_1; try reflexivity. destruct e2_1_1; try reflexivity. destruct r; try reflexivity.
        destruct e2_1_2; try reflexivity. discriminate ER. }
      rewrite D in He. apply andb_prop in He. destruct He as [He H3]. apply andb_prop in He. destruct He as [H1 H2].
      pose proof (IH e1 ne s H1 Hne Hb) as K1.
      assert (norec e1 = true -> match runc n e1 s with ROk s' => errs (user s') <> [] -> errs (user s) <> [] | _ => True end) as N1.
      { intros Hn. pose proof (norec_sound n e1 s Hn) as K. destruct (runc n e1 s); auto. rewrite K. auto. }
      destruct (runc n e1 s) as [s1|s1| |]; auto.
      pose proof (IH e2 false s1 H2 ltac:(discriminate) K1) as K2.
      destruct (runc n e2 s1) as [s2|s2| |] eqn:E2; auto.
      apply orb_prop in H3. destruct H3 as [H3|H3]; [auto|]. exfalso. eapply sureb_run; eauto.
  - cbn [rsafe] in He. apply andb_prop in He. destruct He as [H1 H2].
    pose proof (IH e1 ne s H1 Hne Hb) as K1. destruct (runc n e1 s) as [s1|s1| |] eqn:E1; auto.
    assert (backed (restore s s1)) as B1 by (intros K; cbn in *; auto).
    assert (ne || csure AE e1 = true -> pos (restore s s1) < len) as N1.
    { intros K. cbn. apply orb_prop in K. destruct K as [K|K]; [auto|].
      destruct (Nat.lt_ge_cases (pos s) len); [assumption|exfalso]. eapply (sure_run n e1 s s1); [|exact E1].
      unfold modeof. destruct (Nat.ltb_spec (pos s) len); [lia|exact K]. }
    pose proof (IH e2 _ (restore s s1) H2 N1 B1) as K2. cbn [restore user] in K2.
    destruct (runc n e2 (restore s s1)); auto.
  - pose proof (NR e s He Hb) as K. destruct (runc n e s) as [s1|s1| |]; auto.
    + destruct K as [K1 K2]. pose proof (ST e s1 He K1) as K3. destruct (runc n (PStar e) s1); auto.
    + intros K1. cbn in *. auto.
  - pose proof (NR e s He Hb) as K. destruct (runc n e s) as [s1|s1| |]; auto.
    destruct K as [K1 K2]. pose proof (ST e s1 He K1) as K3. destruct (runc n (PStar e) s1); auto.
  - cbn [rsafe] in He. pose proof (IH e ne s He Hne Hb) as K. destruct (runc n e s) as [s1|s1| |]; auto.
    intros K1. cbn in *. auto.
  - pose proof (NR e s He Hb) as K. destruct (runc n e s) as [s1|s1| |]; auto. intros K1. cbn in *. apply Hb. tauto.
  - pose proof (NR e s He Hb) as K. destruct (runc n e s) as [s1|s1| |]; auto; [tauto|].
    intros K1. cbn in *. auto.
  - intros K. cbn in K. change (is_skip a || skips (thunks s) = true). rewrite (Hb K). apply orb_true_r.
  - assert (q <> QRecordError) as Hq by (intros ->; discriminate He).
    unfold run_pred. destruct (cprun col off q (pos s) (get_of inp (pos s)) (user s)) as [[[v u] l]|] eqn:E; [|exact I].
    apply cprun_norec in E; [|exact Hq]. destruct v; unfold backed; cbn; rewrite E; [|auto].
    intros K. rewrite skips_add, (Hb K). apply orb_true_r.
  - cbn [rsafe] in He. apply andb_prop in He. destruct He as [H1 H2].
    pose proof (IH e ne s H1 Hne Hb) as K. destruct (runc n e s) as [s1|s1| |]; auto.
    assert (q <> QRecordError) as Hq by (intros ->; discriminate H2).
    unfold run_pred. destruct (cprun col off q (pos s1) (get_of inp (pos s1)) (user s1)) as [[[v u] l]|] eqn:E; [|exact I].
    apply cprun_norec in E; [|exact Hq]. destruct v; cbn; rewrite E; auto.
Qed.
End Run.

(** ** From the thunks to the nodes *)
Definition err_node (n : node) : bool := type_eqb (nty n) T_ERROR.
Definition tame (t : action) : bool :=
  is_skip t || forallb (fun c => negb (type_eqb (fst (build_call c)) T_ERROR)) (ctors t).
Fixpoint tamed (x : cexp) : bool :=
  match x with
  | PAct t | PPred (QDo t) => tame t
  | PSeq e1 e2 | PAlt e1 e2 => tamed e1 && tamed e2
  | PStar e1 | PPlus e1 | PQuery e1 | PErr e1 _ => tamed e1
  | _ => true
  end.

Lemma rules_tamed : forall r, tamed (CG r) = true.
Proof.
  assert (K : forallb (fun r => tamed (CG r)) all_rules = true) by (vm_compute; reflexivity).
  intros r. rewrite forallb_forall in K. exact (K r (all_rules_complete r)).
Qed.

Lemma emits_tame : forall e l, emits CG e l -> tamed e = true -> forallb (fun t => tame (fst t)) l = true.
Proof.
  intros e l H. induction H; cbn [tamed]; intros HC; try reflexivity; auto using rules_tamed;
    try (apply andb_prop in HC; destruct HC as [C1 C2]); try (rewrite forallb_app, ?IHemits1, ?IHemits2; auto); auto.
  - cbn. rewrite HC. reflexivity.
  - cbn. rewrite HC. reflexivity.
Qed.

Lemma exec_tame : forall e l a a', forallb (fun t => tame (fst t)) l = true -> exec e l a = XOk a' ->
  exists ns, steps ns a a' /\ existsb err_node ns = skips l.
Proof.
  induction l as [|[t p] l IH]; intros a a' HC HE.
  - injection HE as <-. exists []. split; constructor.
  - cbn in HC. apply andb_prop in HC. destruct HC as [C1 C2]. cbn in HE.
    destruct (exec_action e t p a) as [a1| | |] eqn:E; cbn in HE; try discriminate.
    destruct (IH _ _ C2 HE) as [n2 [S2 T2]].
    assert (exists n1, steps n1 a a1 /\ existsb err_node n1 = is_skip t) as [n1 [S1 T1]].
    { destruct (is_skip t) eqn:K.
      - assert (t = TDo [SLet LRet (RMk K_skip [])]) as ->.
        { destruct t as [| | | | | | |[|[] [|]]]; try discriminate K; destruct l0; try discriminate K; destruct r; try discriminate K;
            destruct c; try discriminate K; destruct l0; try discriminate K. reflexivity. }
        cbn [exec_action exec_stmts exec_stmt] in E.
        destruct (eval_rhs e (RMk K_skip []) a) as [[v b]| | |] eqn:ER; cbn in E; try discriminate. injection E as <-.
        cbn in ER. destruct (do_build e K_skip [] a) as [[n b']| | |] eqn:EB; cbn in ER; try discriminate.
        injection ER as _ <-. exists [n]. split.
        + eapply st_grow; [eapply build_grown; eauto|]. apply steps_keep, kept_eq; reflexivity.
        + cbn. unfold err_node. rewrite (build_type _ _ _ _ _ _ EB). reflexivity.
      - unfold tame in C1. rewrite K in C1. cbn in C1. destruct (action_typed _ _ _ _ _ E) as [n1 [S1 T1]].
        exists n1. split; [exact S1|]. clear - C1 T1. induction T1 as [|n ns [c [D1 D2]] _ IH]; [reflexivity|].
        cbn. rewrite IH, orb_false_r. unfold err_node. rewrite D2. rewrite forallb_forall in C1. apply C1 in D1.
        destruct (type_eqb _ _); [discriminate|reflexivity]. }
    exists (n1 ++ n2). split; [eapply steps_app; eauto|]. rewrite existsb_app, T1, T2. reflexivity.
Qed.

(** giving the errors their contexts does not change their number *)
Lemma fill_length : forall e l l', fill_contexts e l = XOk l' -> List.length l' = List.length l.
Proof.
  induction l as [|x l IH]; intros l' H; cbn [fill_contexts] in H; [injection H as <-; reflexivity|].
  destruct (pe_ctx x); [injection H as <-; reflexivity|]. destruct (line_context _ _ _); [|discriminate].
  destruct (fill_contexts e l) as [l1| | |]; cbn in H; try discriminate. injection H as <-. cbn. auto.
Qed.
Lemma stmt_errcount : forall e s a a', exec_stmt e s a = XOk a' -> List.length (a_errs a') = List.length (a_errs a).
Proof.
  intros e s. induction s as [|x|x| |s| | |o|r|l r|x s IH]; intros a a' H;
    try (pose proof (exec_stmt_frame _ _ _ _ H) as [_ [F _]]; rewrite F by reflexivity; reflexivity).
  - cbn in H. unfold do_finished in H. destruct (fill_contexts e (rev (a_errs a))) as [l| | |] eqn:E; cbn in H; try discriminate.
    injection H as <-. cbn. apply fill_length in E. rewrite rev_length in *. exact E.
  - cbn [exec_stmt] in H. destruct (eval_arg x a) as [v| | |]; cbn in H; try discriminate.
    destruct (match v with Some _ => _ | None => _ end); [injection H as <-; reflexivity|eauto].
Qed.
Lemma exec_errcount : forall e ts a a', exec e ts a = XOk a' -> List.length (a_errs a') = List.length (a_errs a).
Proof.
  intros e ts. induction ts as [|[t p] ts IH]; intros a a' H; cbn [exec] in H; [injection H as <-; reflexivity|].
  destruct (exec_action e t p a) as [a1| | |] eqn:E; cbn in H; try discriminate. rewrite (IH _ _ H). clear IH H.
  destruct t as [n|n|k| | | | |l];
    try (pose proof (exec_action_frame _ _ _ _ _ E) as [_ [F _]]; rewrite F by reflexivity; reflexivity).
  cbn [exec_action] in E. revert a E. induction l as [|s l IH]; intros a H; cbn [exec_stmts] in H; [injection H as <-; reflexivity|].
  destruct (exec_stmt e s a) as [b| | |] eqn:E; cbn in H; try discriminate. rewrite (IH _ H). eapply stmt_errcount; eauto.
Qed.

(** ** A segment *)
Definition skipped (seg : segment) : bool := existsb err_node (forest (s_roots seg)).

Lemma existsb_perm : forall (A : Type) (f : A -> bool) l l', Permutation l l' -> existsb f l = existsb f l'.
Proof.
  induction 1; cbn; try congruence. rewrite !orb_assoc, (orb_comm (f y)). reflexivity.
Qed.
Lemma existsb_forall : forall (A : Type) (f : A -> bool) l, existsb f l = false <-> Forall (fun x => f x = false) l.
Proof.
  intros A f l. induction l as [|x l IH]; cbn; [split; auto|]. rewrite orb_false_iff, IH. split; [intros []; auto|].
  intros H. split; [exact (Forall_inv H)|exact (Forall_inv_tail H)].
Qed.

Lemma numbered_errs : forall ts n, existsb err_node (forest (fst (set_ordinals_all ts n))) = existsb err_node (forest ts).
Proof.
  intros ts n. destruct (ordinals_all ts n) as [_ [H _]]. apply (f_equal forest) in H. rewrite !forest_erase in H.
  assert (K : forall l, existsb err_node (map erase l) = existsb err_node l).
  { induction l as [|x l IH]; [reflexivity|]. cbn. rewrite IH. unfold err_node. rewrite erase_ty. reflexivity. }
  rewrite <- K, H, K. reflexivity.
Qed.

Lemma produced_skipped : forall cf la fl inp o y p a u en seg,
  produced cf la (start_rule fl) inp o y p a u en seg ->
  exists k s, crun (cf_color cf) (y_off y) k inp (PRule (start_rule fl)) (match_start y) = ROk s /\
    skipped seg = skips (thunks s) /\ List.length (s_errors seg) = List.length (errs (user s)).
Proof.
  intros cf la fl inp o y p a u en seg [[lines [HR _]] _ _ _ ->].
  pose proof (round_safe cf la (start_rule fl) inp y CG table (result_types fl) (start_entry fl)
    (adapted_CG _ _ _) table_checked (table_ends fl)) as H. rewrite HR in H.
  destruct H as [_ [E2 [_ [E4 [b [B1 _]]]]]].
  rewrite parse_one_eq in HR. apply finish_one_ok in HR. revert HR. unfold crun. generalize (cfuel inp). intros k HR.
  destruct HR as [s [HM [-> [-> [-> [HE _]]]]]]. exists k, s. split; [exact HM|].
  pose proof (exec_errcount _ _ _ _ HE) as HN. cbn [a_errs] in HN.
  destruct (run_leaves _ _ _ _ (adapted_CG _ _ _) _ _ _ _ HM) as [l [L1 L2]].
  cbn [match_start thunks] in L2. rewrite app_nil_r in L2. rewrite L2, rev_involutive in HE.
  destruct (exec_tame _ _ _ _ (emits_tame _ _ L1 eq_refl) HE) as (ns & N1 & N2).
  apply steps_all in N1. unfold held in N1. rewrite E2, E4, B1 in N1. cbn in N1. rewrite !app_nil_r in N1.
  unfold skipped, round_segment. rewrite B1.
  destruct (make_segment_fields o (mkrange (y_off y) en) (a_errs a) (b_kids b) (a_result a) (a_eof a)) as [_ [-> [-> _]]].
  split; [|exact HN].
  rewrite numbered_errs, (existsb_perm _ _ _ _ N1), L2. transitivity (existsb err_node ns).
  - apply existsb_perm, Permutation_sym, Permutation_rev.
  - rewrite N2. unfold skips. apply existsb_perm, Permutation_rev.
Qed.

Lemma length_nil : forall (A B : Type) (l : list A) (m : list B), List.length l = List.length m -> l <> [] -> m <> [].
Proof. intros A B [|] [|]; cbn; congruence. Qed.

(** a segment with errors has skipped input *)
Lemma produced_backed : forall cf la fl inp o y p a u en seg, quiet y ->
  produced cf la (start_rule fl) inp o y p a u en seg -> s_errors seg <> [] -> skipped seg = true.
Proof.
  intros cf la fl inp o y p a u en seg Hq HP HE. destruct (produced_skipped _ _ _ _ _ _ _ _ _ _ _ HP) as (k & s & HM & HS & HN).
  unfold crun in HM. rewrite HS. pose proof (rsafe_sound (cf_color cf) (y_off y) inp k (PRule (start_rule fl)) false (match_start y)) as K.
  rewrite HM in K. apply K; [|discriminate| |].
  - unfold start_rule. destruct (pf_only_statements fl); reflexivity.
  - intros H. exfalso. apply H. apply Hq.
  - eapply length_nil; eauto.
Qed.

(** a segment with skipped input has errors, if nothing was noted beyond its start before *)
Lemma produced_covered : forall cf la fl inp o y p a u en seg, quiet y -> offset (et_pos (y_et y)) <= offset (y_off y) ->
  produced cf la (start_rule fl) inp o y p a u en seg -> skipped seg = true -> s_errors seg <> [].
Proof.
  intros cf la fl inp o y p a u en seg [Q1 Q2] Ho HP HE. destruct (produced_skipped _ _ _ _ _ _ _ _ _ _ _ HP) as (k & s & HM & HS & HN).
  unfold crun in HM. rewrite HS in HE.
  assert (K : covered s).
  { refine (safe_sound (cf_color cf) (y_off y) inp k (PRule (start_rule fl)) false (match_start y) s _ _ _ _ HM).
    - right. auto.
    - discriminate.
    - intros H. discriminate H.
    - unfold start_rule. destruct (pf_only_statements fl); reflexivity. }
  eapply length_nil; [|exact (K HE)]. auto.
Qed.

Lemma skipped_iff : forall seg, skipped seg = true <-> exists n, In n (forest (s_roots seg)) /\ nty n = T_ERROR.
Proof.
  intros seg. unfold skipped. rewrite existsb_exists. unfold err_node. split; intros [n [H1 H2]]; exists n; (split; [exact H1|]).
  - apply type_eqb_eq. exact H2.
  - rewrite H2. reflexivity.
Qed.

(** ** A call *)
Lemma chain_backed : forall cf la fl inp o y segs c, quiet y -> chain cf la (start_rule fl) inp o y segs c ->
  Forall (fun seg => s_errors seg <> [] -> skipped seg = true) segs.
Proof.
  intros cf la fl inp o y segs c Hq H. induction H as [| |inp o y p a u en seg H _|inp o y p a u en seg segs c H _ _ IH]; repeat constructor.
  - intros K. eapply produced_backed; eauto.
  - intros K. eapply produced_backed; eauto.
  - apply IH, quiet_next.
Qed.

Lemma parse_each_backed : forall cf la cb fl inp ret segs last seg,
  parse_each cf la cb fl inp = PRet ret segs last -> In seg segs -> s_errors seg <> [] ->
  exists n, In n (forest (s_roots seg)) /\ nty n = T_ERROR.
Proof.
  intros cf la cb fl inp ret segs last seg H Hs He. apply parse_each_chain in H. destruct H as [c [H _]].
  apply skipped_iff. apply chain_backed in H; [|apply quiet_0]. rewrite Forall_forall in H. auto.
Qed.

Lemma parse_each_covered : forall cf la cb fl inp ret seg segs last n,
  parse_each cf la cb fl inp = PRet ret (seg :: segs) last -> In n (forest (s_roots seg)) -> nty n = T_ERROR ->
  s_errors seg <> [].
Proof.
  intros cf la cb fl inp ret seg segs last n H Hn Ht. apply parse_each_chain in H. destruct H as [c [H _]].
  assert (exists p a u en, produced cf la (start_rule fl) inp (cf_ordinal cf) (carry0 cf) p a u en seg) as (p & a & u & en & HP).
  { inversion H; subst; eauto. }
  eapply produced_covered; [apply quiet_0| |exact HP|apply skipped_iff; eauto].
  apply Nat.le_0_l.
Qed.
