(** * Texts that can be taken as a whole: strings and names *)
From Coq Require Import List Bool Arith Ascii String ZArith Lia Permutation.
From Verif Require Import Peg PegProofs PegThunks QuickModel QuickSpec QuickProofs CypherSyntax CypherGrammar ErrModel
  CypherMatch AstTypes AstModel CypherBuild CypherExec CypherParse CypherRun CypherRound CypherSpec
  NodeFacts NodeHeld FlowSound FlowRun SafeProofs TraceSpec TraceProofs LexSpec LexProofs TermSpec Forward ForwardExec.
Import ListNotations.
Open Scope peg_scope.
Opaque parse_one cfuel.
Strategy expand [crun].

(** ** Actions that only append to the string buffer *)
Definition light_act (t : action) : bool :=
  match t with
  | TBlockStart | TBlockEnd | TDo [SStrAppend _] | TDo [SStrBlock] => true
  | _ => false
  end.

Lemma light_exec : forall e l d d' a a', forallb (fun x => light_act (fst x)) l = true ->
  LexProofs.bal l d = Some d' -> exec e l a = XOk a' ->
  kept a a' /\ a_frames a' = a_frames a /\ a_ops a' = a_ops a /\ skipn d' (a_blocks a') = skipn d (a_blocks a).
Proof.
  intros e. induction l as [|[t p] l IH]; intros d d' a a' HL HB HX.
  - injection HB as <-. injection HX as <-. repeat split. lia.
  - cbn [forallb fst] in HL. apply andb_prop in HL as [H1 H2]. cbn [exec] in HX.
    destruct (exec_action e t p a) as [a1| | |] eqn:E1; cbn [xbind] in HX; try discriminate.
    assert (K : exists d1, LexProofs.bal l d1 = Some d' /\ kept a a1 /\ a_frames a1 = a_frames a /\ a_ops a1 = a_ops a /\
      skipn d1 (a_blocks a1) = skipn d (a_blocks a)).
    { destruct t as [n|n|k| | | | |ss]; try discriminate H1.
      - cbn in E1, HB. unfold do_block_start in E1. destruct (x_position e p) as [ps| | |]; cbn in E1; try discriminate.
        exists (S d). split; [exact HB|]. injection E1 as <-. unfold block_free. destruct (a_prev a); repeat split; cbn; lia.
      - cbn in E1, HB. unfold do_block_end, close_block in E1. destruct (x_position e p) as [ps| | |]; cbn in E1; try discriminate.
        destruct (a_blocks a) as [|b bs] eqn:EB; [discriminate|].
        destruct (_ && _) in E1; [|discriminate]. cbn in E1. destruct d as [|d]; [discriminate|]. exists d. split; [exact HB|].
        injection E1 as <-. cbn. rewrite ?EB. repeat split; cbn; auto.
      - exists d. destruct ss as [|st [|st2 ss]]; try discriminate H1; [|destruct st; discriminate H1].
        destruct st; try discriminate H1; cbn in E1, HB.
        + split; [exact HB|]. injection E1 as <-. repeat split; cbn; lia.
        + split; [exact HB|]. destruct (a_prev a); try discriminate; injection E1 as <-; repeat split; cbn; lia. }
    destruct K as (d1 & B1 & (P1 & P2 & P3) & F1 & O1 & S1). destruct (IH _ _ _ _ H2 B1 HX) as ((Q1 & Q2 & Q3) & F2 & O2 & S2).
    repeat split; try congruence. lia.
Qed.

Lemma lexes_performs : forall inp l t, lexes inp l t -> forallb (fun x => light_act (fst x)) l = true -> performs inp (HAppend t) l.
Proof.
  intros inp l t (_ & A & Bq) HL e a a' b bs HE HX HB. destruct (light_exec _ _ _ _ _ _ HL Bq HX) as (K & F & O & S).
  cbn in S. split; [exact K|]. split; [exact F|]. split; [exact S|]. split; [exact O|]. apply (A _ _ _ HE HX).
Qed.

(** the rules that use only such actions *)
Definition light_rule (r : rule) : bool :=
  match r with
  | R_quoted | R_single_quoted | R_double_quoted | R_escaped_char | R_EOL | R__line_start_
  | R_symbolic_name | R_unescaped_symbolic_name | R_escaped_symbolic_name | R_sym_start | R_sym_part
  | R_integer_string => true
  | _ => false
  end.
Fixpoint light (x : cexp) : bool :=
  match x with
  | PRule r => light_rule r
  | PSeq e1 e2 | PAlt e1 e2 => light e1 && light e2
  | PStar e1 | PPlus e1 | PQuery e1 | PErr e1 _ => light e1
  | PAct t | PPred (QDo t) => light_act t
  | _ => true
  end.
Lemma rules_light : forall r, light_rule r = true -> light (CG r) = true.
Proof. intros r H. destruct r; try discriminate H; vm_compute; reflexivity. Qed.
Lemma emits_light : forall e l, emits CG e l -> light e = true -> forallb (fun x => light_act (fst x)) l = true.
Proof.
  intros e l H. induction H; cbn [light]; intros HT; try reflexivity; try (destruct (andb_prop _ _ HT) as [H1 H2]); auto;
    try (rewrite forallb_app; apply andb_true_intro; split; auto; fail); try (cbn; rewrite HT; reflexivity).
  apply IHemits, rules_light. exact HT.
Qed.
Lemma visits_light : forall col off inp n e s, light e = true -> plain (visits col off inp n e s).
Proof.
  intros col off inp. induction n as [|n IH]; intros e s HL; [constructor|].
  destruct e; cbn [visits]; try constructor; cbn [light] in HL; try (destruct (andb_prop _ _ HL) as [H1 H2]).
  - destruct (run CG (get_of inp) (cprun col off) n (CG r) s); try constructor; [destruct r; try discriminate HL; reflexivity|].
    apply IH, rules_light. exact HL.
  - destruct (run CG (get_of inp) (cprun col off) n e1 s); try constructor. apply Forall_app. split; apply IH; assumption.
  - destruct (run CG (get_of inp) (cprun col off) n e1 s); try constructor; apply IH; assumption.
  - destruct (run CG (get_of inp) (cprun col off) n e s); try constructor; first [apply IH; assumption | apply Forall_app; split; apply IH; assumption].
  - destruct (run CG (get_of inp) (cprun col off) n e s); try constructor; first [apply IH; assumption | apply Forall_app; split; apply IH; assumption].
  - destruct (run CG (get_of inp) (cprun col off) n e s); try constructor; first [apply IH; assumption | apply Forall_app; split; apply IH; assumption].
  - destruct (run CG (get_of inp) (cprun col off) n e s); try constructor; first [apply IH; assumption | apply Forall_app; split; apply IH; assumption].
Qed.

(** ** Uniqueness of the text of a string *)
Lemma decode_prefix : forall q n body body' t t' R R', is_quote q -> List.length body <= n ->
  decode q body = Some t -> decode q body' = Some t' -> body ++ q :: R = body' ++ q :: R' -> body = body'.
Proof.
  intros q. induction n as [|n IH]; intros body body' t t' R R' HQ HL D1 D2 E.
  - destruct body; [|cbn in HL; lia]. destruct body' as [|c body']; [reflexivity|]. cbn in E. injection E as <- _.
    cbn [decode] in D2. destruct HQ as [-> | ->]; discriminate D2.
  - destruct body as [|c v].
    { destruct body' as [|c body']; [reflexivity|]. cbn in E. injection E as <- _.
      cbn [decode] in D2. destruct HQ as [-> | ->]; discriminate D2. }
    destruct body' as [|c' v'].
    { cbn in E. injection E as -> _. cbn [decode] in D1. destruct HQ as [-> | ->]; discriminate D1. }
    cbn in E. injection E as <- E. cbn [decode] in D1, D2. cbn in HL. destruct (Ascii.eqb c "\").
    + destruct v as [|d w]; [discriminate|]. destruct v' as [|d' w']; [discriminate|].
      cbn in E. injection E as <- E. destruct (escape d).
      * destruct (decode q w) as [t1|] eqn:E1; [|discriminate]. destruct (decode q w') as [t2|] eqn:E2; [|discriminate].
        f_equal. f_equal. cbn in HL. eapply IH; eauto. lia.
      * destruct (decode q (d :: w)) as [t1|] eqn:E1; [|discriminate]. destruct (decode q (d :: w')) as [t2|] eqn:E2; [|discriminate].
        f_equal. eapply IH; [exact HQ| |exact E1|exact E2|cbn; rewrite E; reflexivity]. cbn in *. lia.
    + destruct (Ascii.eqb c q); [discriminate|]. destruct (decode q v) as [t1|] eqn:E1; [|discriminate].
      destruct (decode q v') as [t2|] eqn:E2; [|discriminate]. f_equal. eapply IH; eauto. lia.
Qed.
Lemma quoted_prefix : forall u v u' v' R R', quoted_text u v -> quoted_text u' v' -> u ++ R = u' ++ R' -> u = u' /\ v = v'.
Proof.
  intros u v u' v' R R' (q & b & Q1 & -> & Q3) (q' & b' & P1 & -> & P3) E. cbn in E. injection E as <- E.
  rewrite <- !app_assoc in E. assert (b = b') as -> by (eapply decode_prefix; eauto). split; congruence.
Qed.
Lemma rds_stops : forall q u t, is_quote q -> rds q [] u t -> forall body v R, decode q body = Some v -> u <> body ++ q :: R.
Proof.
  intros q u t HQ H. induction H as [|c x u t E H IH|c u t N1 N2 H IH]; intros body v R HD K.
  - destruct body; discriminate K.
  - destruct body as [|d [|d' w]]; cbn in K.
    + injection K as K _. destruct HQ; congruence.
    + injection K as <- _ _. discriminate HD.
    + injection K as <- <- K. cbn [decode] in HD. rewrite Ascii.eqb_refl, E in HD.
      destruct (decode q w) as [t1|] eqn:E1; [|discriminate]. exact (IH _ _ _ E1 K).
  - destruct body as [|d w]; cbn in K; [injection K as K _; contradiction|]. injection K as <- K. cbn [decode] in HD.
    destruct (Ascii.eqb c "\") eqn:EC.
    + apply Ascii.eqb_eq in EC. destruct w as [|d w]; [discriminate|].
      rewrite (N2 EC d (w ++ q :: R)) in HD by (rewrite app_nil_r; exact K).
      destruct (decode q (d :: w)) as [t1|] eqn:E1; [|discriminate]. exact (IH _ _ _ E1 K).
    + destruct (Ascii.eqb c q); [discriminate|]. destruct (decode q w) as [t1|] eqn:E1; [|discriminate]. exact (IH _ _ _ E1 K).
Qed.

(** ** Taking a text *)
Section Take.
Variables (col : coloring) (off : position) (inp : bytes).
Notation runc := (run CG (get_of inp) (cprun col off)).
Notation vis := (visits col off inp).
Notation cst := (pst action cuser).
Notation over := (over inp).
Notation lexed := (lexed inp).
Notation at_ := (at_ inp).
Notation performs := (performs inp).

Definition here (s : cst) (u : bytes) : Prop := skipn (pos s) inp = u /\ pos s <= List.length inp.

(** [x] takes [u], in front of [R]: it does not fail, leaves the precedence stack
    as it was and its actions do [h] *)
Definition takes (t : tst) (x : cexp) (u R : bytes) (h : heff) : Prop :=
  forall m s, here s (u ++ R) -> same (user s) t ->
  match runc m x s with
  | ROk s' => here s' R /\ c_precs (user s') = t_prs t /\
      (exists l, thunks s' = rev l ++ thunks s /\ performs h l) /\ plain (vis m x s)
  | RFail _ => False
  | _ => True
  end.
Definition refuses (t : tst) (x : cexp) (u : bytes) : Prop :=
  forall m s, here s u -> same (user s) t ->
  match runc m x s with ROk _ => False | RFail s' => c_precs (user s') = t_prs t | _ => True end.

Lemma keeps_precs : forall n e s f, CypherRun.bal 0 e = Some (0, f) -> f = None \/ f = Some 0 ->
  match runc n e s with ROk s' | RFail s' => c_precs (user s') = c_precs (user s) | _ => True end.
Proof.
  intros n e s f HB HF.
  pose proof (bal_sound col off (get_of inp) n e 0 0 f s (c_precs (user s)) HB) as H.
  assert (A : above 0 (c_precs (user s)) (user s)) by (exists []; auto). specialize (H A).
  destruct (runc n e s) as [s'|s'| |]; auto.
  - destruct H as [ps [H1 H2]]. destruct ps; [exact H2|discriminate].
  - destruct HF as [-> | ->]; [contradiction|]. destruct H as [ps [H1 H2]]. destruct ps; [exact H2|discriminate].
Qed.

Lemma over_here : forall s s' u R, over s s' u -> here s (u ++ R) -> here s' R.
Proof.
  intros s s' u R [O1 O2] [H1 H2]. rewrite H1 in O2. apply app_inv_head in O2. split; [symmetry; exact O2|].
  assert (List.length (skipn (pos s) inp) = List.length (u ++ R)) by congruence.
  rewrite skipn_length, app_length in H. lia.
Qed.

Lemma light_takes : forall t x u R v, light x = true -> balx x 0 = Some 0 -> (exists f, CypherRun.bal 0 x = Some (0, f) /\ (f = None \/ f = Some 0)) ->
  (forall m s s', here s (u ++ R) -> runc m x s = ROk s' -> lexed s s' u v) ->
  (forall m s s', here s (u ++ R) -> runc m x s = RFail s' -> False) ->
  takes t x u R (HAppend v).
Proof.
  intros t x u R v HL HB (f & HP & HF) H1 H2 m s HH [HS1 HS2].
  pose proof (keeps_precs m x s f HP HF) as HK.
  destruct (runc m x s) as [s'|s'| |] eqn:E; auto; [|eapply H2; eauto].
  destruct (H1 _ _ _ HH E) as [O (l & L1 & L2)].
  split; [eapply over_here; eauto|]. split; [congruence|]. split; [|apply visits_light; exact HL].
  exists l. split; [exact L1|]. apply lexes_performs; [exact L2|].
  destruct (run_leaves _ _ _ _ (adapted_CG _ _ _) _ _ _ _ E) as [l0 [M1 M2]].
  rewrite M2 in L1. apply app_inv_tail in L1. apply (f_equal (@rev _)) in L1. rewrite !rev_involutive in L1. subst l0.
  eapply emits_light; eauto.
Qed.

Lemma star_stop : forall n e s s', runc n (PStar e) s = ROk s' ->
  exists m s1 s2, pos s1 = pos s' /\ runc m e s1 = RFail s2.
Proof.
  induction n as [n IH] using lt_wf_ind. intros e s s' H. destruct n as [|n]; [discriminate|]. cbn [Peg.run] in H.
  destruct (runc n e s) as [s1|s1| |] eqn:E; try discriminate; [apply (IH n (Nat.lt_succ_diag_r n) _ _ _ H)|].
  injection H as <-. exists n, s, s1. auto.
Qed.
Lemma fail_plus : forall n e s s', runc n (PPlus e) s = RFail s' -> exists m, m < n /\ runc m e s = RFail s'.
Proof.
  intros [|n] e s s' H; [discriminate|]. cbn [Peg.run] in H. exists n. split; [lia|].
  destruct (runc n e s) as [s1|s1| |] eqn:E; try discriminate; [|exact H]. exfalso.
  revert H. generalize s1. clear. induction n as [n IH] using lt_wf_ind. intros s1 H. destruct n as [|n]; [discriminate|]. cbn [Peg.run] in H.
  destruct (runc n e s1); try discriminate. eapply IH; [apply Nat.lt_succ_diag_r|exact H].
Qed.
Lemma fail_star : forall n e s s', runc n (PStar e) s = RFail s' -> False.
Proof.
  induction n as [n IH] using lt_wf_ind. intros e s1 s' H. destruct n as [|n]; [discriminate|]. cbn [Peg.run] in H.
  destruct (runc n e s1); try discriminate. eapply IH; [apply Nat.lt_succ_diag_r|exact H].
Qed.
Lemma fail_not : forall n e s s', runc n (PNot e) s = RFail s' -> exists m s1, m < n /\ runc m e s = ROk s1.
Proof.
  intros [|n] e s s' H; [discriminate|]. cbn [Peg.run] in H. destruct (runc n e s) as [s1|s1| |] eqn:E; try discriminate; eauto.
Qed.
Lemma fail_dot : forall n s s', runc n PDot s = RFail s' -> nth_error inp (pos s) = None.
Proof.
  intros [|n] s s' H; [discriminate|]. cbn [Peg.run] in H. unfold get_of in H. destruct (nth_error inp (pos s)); [discriminate|reflexivity].
Qed.
Lemma fail_do : forall n t s s', runc n (PPred (QDo t)) s = RFail s' -> False.
Proof. intros [|n] t s s' H; [discriminate|]. cbn in H. discriminate. Qed.
Lemma fail_act : forall n t s s', runc n (PAct t) s = RFail s' -> False.
Proof. intros [|n] t s s' H; [discriminate|]. cbn in H. discriminate. Qed.
Lemma fail_block : forall n e s s', runc n (block_exp e) s = RFail s' -> exists m s1 s2, pos s1 = pos s /\ runc m e s1 = RFail s2.
Proof.
  intros n e s s' H. unfold block_exp in H. apply fail_seq in H. destruct H as (m & _ & [(s1 & H)|(s1 & H1 & H)]); [apply fail_do in H; contradiction|].
  apply run_pdo in H1. destruct H1 as [P1 _].
  apply fail_seq in H. destruct H as (m2 & _ & [(s2 & H)|(s2 & _ & H)]); [eauto|].
  apply fail_seq in H. destruct H as (m3 & _ & [(s3 & H)|(s3 & _ & H)]); [apply fail_do in H; contradiction|apply fail_act in H; contradiction].
Qed.
Lemma fail_eol : forall n s s', runc n (PRule R_EOL) s = RFail s' -> ~ at_ s 0 NL /\ ~ (at_ s 0 CR /\ at_ s 1 NL).
Proof.
  intros n s s' H. apply fail_rule in H. destruct H as (m & s1 & _ & H).
  change (CG R_EOL) with ((PChar "010"%char ∥ PStr ["013"%char; "010"%char]) ⋅ (PRule R__line_start_ : cexp)) in H.
  apply fail_seq in H. destruct H as (m1 & _ & [(s2 & H)|(s2 & _ & H)]); [|apply fail_line_start in H; contradiction].
  apply fail_alt in H. destruct H as (m2 & s3 & _ & H1 & H2). apply fail_char in H1. split; [exact H1|].
  intros [K1 K2]. destruct m2 as [|m2]; [discriminate|]. cbn [Peg.run match_str] in H2. unfold LexProofs.at_ in K1, K2. unfold get_of in H2.
  cbn [pos restore] in H2. rewrite Nat.add_0_r in K1. rewrite Nat.add_1_r in K2.
  rewrite K1 in H2. unfold beq in H2. change (Ascii.eqb "013" CR) with true in H2. cbv iota in H2. rewrite K2 in H2.
  change (Ascii.eqb "010" NL) with true in H2. cbv iota in H2. discriminate H2.
Qed.

Lemma at_of_over : forall (s s' : cst) u i c, over s s' u -> nth_error u i = Some c -> at_ s i c.
Proof.
  intros s s' u i c [O1 O2] H. unfold LexProofs.at_.
  assert (E : forall (l : bytes) p k, nth_error l (p + k) = nth_error (skipn p l) k).
  { clear. induction l as [|x l IH]; intros [|p] k; cbn; try reflexivity; [destruct k; reflexivity|apply IH]. }
  rewrite E, O2. rewrite nth_error_app1; [exact H|]. apply nth_error_Some. congruence.
Qed.

(** where the repetition inside a string stops *)
Lemma fail_quoted_body : forall q n s s', runc n (quoted_body q) s = RFail s' ->
  nth_error inp (pos s) = Some q \/ nth_error inp (pos s) = None.
Proof.
  intros q n s s' H. unfold quoted_body in H. apply fail_alt in H. destruct H as (m1 & s1 & _ & F1 & H).
  apply fail_alt in H. destruct H as (m2 & s2 & _ & F2 & F3). apply fail_block in F2. destruct F2 as (m3 & s3 & s4 & P3 & F2).
  apply fail_block in F3. destruct F3 as (m5 & s5 & s6 & P5 & F3). cbn [pos restore] in P3, P5.
  apply fail_plus in F3. destruct F3 as (m6 & _ & F3). apply fail_seq in F3. destruct F3 as (m7 & _ & [(s7 & F3)|(s7 & F4 & F3)]).
  - apply fail_not in F3. destruct F3 as (m8 & s8 & _ & F3). apply run_alt in F3. destruct F3 as (m9 & _ & [F3|(s9 & _ & F3)]).
    + apply run_char in F3. destruct F3 as [O _]. left. pose proof (at_of_over _ _ _ 0 q O eq_refl) as K. unfold LexProofs.at_ in K.
      rewrite Nat.add_0_r, P5 in K. exact K.
    + apply run_alt in F3. destruct F3 as (m10 & _ & [F3|(s10 & _ & F3)]).
      * apply run_esc in F3. destruct F3 as (c & x & E & [O _]).
        pose proof (at_of_over _ _ _ 0 _ O eq_refl) as K0. pose proof (at_of_over _ _ _ 1 _ O eq_refl) as K1.
        unfold LexProofs.at_ in K0, K1. cbn [pos restore] in K0, K1. rewrite P5 in K0, K1.
        rewrite (fail_esc _ _ _ _ _ _ _ F1 K0 K1) in E. discriminate.
      * apply run_eol in F3. destruct F3 as (t & O & T & _). apply fail_eol in F2. destruct F2 as [N1 N2].
        unfold LexProofs.at_ in N1, N2. rewrite P3, <- P5 in N1, N2. exfalso. destruct T as [-> | ->].
        { apply N1. exact (at_of_over _ _ _ 0 _ O eq_refl). }
        { apply N2. split; [exact (at_of_over _ _ _ 0 _ O eq_refl)|exact (at_of_over _ _ _ 1 _ O eq_refl)]. }
  - apply fail_dot in F3. apply run_not in F4. destruct F4 as (P7 & _). right. congruence.
Qed.

Lemma here_at : forall s c u, here s (c :: u) -> nth_error inp (pos s) = Some c.
Proof. intros s c u [H _]. eapply skipn_nth; eauto. Qed.
Lemma here_end : forall s u, here s u -> nth_error inp (pos s) = None -> u = [].
Proof.
  intros s u [H H0] K. destruct u as [|c u]; [reflexivity|]. apply skipn_nth in H. congruence.
Qed.

Lemma fail_quoted1 : forall q l n s s' body v R, is_quote q -> decode q body = Some v -> here s (q :: body ++ q :: R) ->
  runc n (PChar q ⋅ PStar (quoted_body q) ⋅ PErr (PChar q) (QErr l)) s = RFail s' -> False.
Proof.
  intros q l n s s' body v R HQ HD HH H. apply fail_seq in H. destruct H as (m & _ & [(s1 & H)|(s1 & H1 & H)]).
  { apply fail_char in H. apply H. unfold LexProofs.at_. rewrite Nat.add_0_r. eapply here_at; eauto. }
  apply run_char in H1. destruct H1 as [O1 _].
  assert (H2 : here s1 (body ++ q :: R)) by (apply (over_here s s1 [q]); [exact O1|exact HH]).
  apply fail_seq in H. destruct H as (m2 & _ & [(s2 & H)|(s2 & H3 & H)]); [apply fail_star in H; exact H|].
  apply fail_err in H. destruct H as (m3 & s3 & _ & H). apply fail_char in H.
  destruct (star_stop _ _ _ _ H3) as (m4 & s4 & s5 & P4 & F4). apply fail_quoted_body in F4. rewrite P4 in F4.
  destruct (run_quoted_star _ _ _ _ _ _ _ HQ H3) as (u & t & [O2 _] & HR).
  destruct F4 as [F4|F4]; [apply H; unfold LexProofs.at_; rewrite Nat.add_0_r; exact F4|].
  assert (HE : skipn (pos s2) inp = []).
  { apply skipn_all2. apply nth_error_None in F4. exact F4. }
  rewrite HE in HR. destruct O2 as [_ O2]. rewrite HE, app_nil_r in O2. destruct H2 as [H2 _]. rewrite H2 in O2.
  apply (rds_stops q u t HQ HR body v R HD). congruence.
Qed.

Lemma take_quoted : forall t u R v, quoted_text u v -> takes t (PRule R_quoted) u R (HAppend v).
Proof.
  intros t u R v HQ. apply light_takes; [reflexivity|reflexivity|exists (Some 0); split; [reflexivity|auto]| |].
  - intros m s s' HH H. destruct (run_quoted _ _ _ _ _ _ H) as (u' & v' & L & HQ').
    assert (E : u = u' /\ v = v').
    { destruct L as [[_ O] _]. destruct HH as [HH _]. rewrite HH in O. eapply quoted_prefix; eauto. }
    destruct E as [-> ->]. exact L.
  - intros m s s' HH H. destruct HQ as (q & body & Q1 & -> & Q3). apply fail_rule in H. destruct H as (m1 & s1 & _ & H).
    change (CG R_quoted) with ((PRule R_single_quoted : cexp) ∥ PRule R_double_quoted) in H.
    apply fail_alt in H. destruct H as (m2 & s2 & _ & F1 & F2).
    apply fail_rule in F1. destruct F1 as (m3 & s3 & _ & F1). apply fail_rule in F2. destruct F2 as (m4 & s4 & _ & F2).
    cbn [app] in HH. rewrite <- app_assoc in HH. destruct Q1 as [-> | ->].
    + eapply (fail_quoted1 "'"%char); [left; reflexivity|exact Q3|exact HH|exact F1].
    + eapply (fail_quoted1 """"%char); [right; reflexivity|exact Q3| |exact F2]. exact HH.
Qed.

(** a name between backquotes *)
Lemma backquote_prefix : forall (t t' R R' : bytes), ~ In "`"%char t -> ~ In "`"%char t' ->
  t ++ "`"%char :: R = t' ++ "`"%char :: R' -> t = t'.
Proof.
  induction t as [|c t IH]; intros [|c' t'] R R' N1 N2 E; cbn in *; [reflexivity| | |].
  - injection E as <- _. exfalso. auto.
  - injection E as -> _. exfalso. auto.
  - injection E as <- E. f_equal. eapply IH; eauto.
Qed.
Lemma take_backquoted : forall t R v, ~ In "`"%char v -> takes t (PRule R_symbolic_name) ("`"%char :: v ++ ["`"%char]) R (HAppend v).
Proof.
  intros t R v HN. apply light_takes; [reflexivity|reflexivity|exists (Some 0); split; [reflexivity|auto]| |].
  - intros m s s' HH H. destruct (run_name _ _ _ _ _ _ H) as (u' & v' & L & HQ').
    assert (E : u' = "`"%char :: v ++ ["`"%char] /\ v' = v).
    { destruct L as [[_ O] _]. destruct HH as [HH _]. rewrite HH in O. destruct HQ' as [(-> & c & w & -> & C1 & C2)|[-> C2]].
      - cbn in O. injection O as <- _. exfalso. cbn in C1. clear - C1. intuition discriminate.
      - cbn in O. injection O as O. rewrite <- !app_assoc in O. assert (v' = v) as -> by (symmetry; eapply backquote_prefix; eauto). auto. }
    destruct E as [-> ->]. exact L.
  - intros m s s' HH H. apply fail_rule in H. destruct H as (m1 & s1 & _ & H).
    change (CG R_symbolic_name) with ((PRule R_unescaped_symbolic_name : cexp) ∥ PRule R_escaped_symbolic_name) in H.
    apply fail_alt in H. destruct H as (m2 & s2 & _ & _ & F2). apply fail_rule in F2. destruct F2 as (m4 & s4 & _ & F2).
    change (CG R_escaped_symbolic_name) with (PChar "`"%char ⋅ PPred (QDo TBlockStart) ⋅ PStar (PNot (PChar "`"%char) ⋅ PDot) ⋅
      PPred (QDo TBlockEnd) ⋅ PErr (PChar "`"%char) (QErr (B "`")) ⋅ PAct (TDo [SStrBlock]) : cexp) in F2.
    apply fail_seq in F2. destruct F2 as (k1 & _ & [(sa & F2)|(sa & Ha & F2)]).
    { apply fail_char in F2. apply F2. unfold LexProofs.at_. rewrite Nat.add_0_r. eapply (here_at s). exact HH. }
    apply run_char in Ha. destruct Ha as [Oa _].
    assert (Hsa : here sa (v ++ "`"%char :: R)).
    { cbn [app] in HH. rewrite <- app_assoc in HH. apply (over_here (restore s s2) sa ["`"%char]); [exact Oa|exact HH]. }
    apply fail_seq in F2. destruct F2 as (k2 & _ & [(sb & F2)|(sb & Hb & F2)]); [apply fail_do in F2; contradiction|].
    apply run_pdo in Hb. destruct Hb as [Pb _].
    apply fail_seq in F2. destruct F2 as (k3 & _ & [(sc & F2)|(sc & Hc & F2)]); [apply fail_star in F2; contradiction|].
    apply fail_seq in F2. destruct F2 as (k4 & _ & [(sd & F2)|(sd & Hd & F2)]); [apply fail_do in F2; contradiction|].
    apply run_pdo in Hd. destruct Hd as [Pd _].
    apply fail_seq in F2. destruct F2 as (k5 & _ & [(se & F2)|(se & _ & F2)]); [|apply fail_act in F2; contradiction].
    apply fail_err in F2. destruct F2 as (k6 & sf & _ & F2). apply fail_char in F2. unfold LexProofs.at_ in F2. rewrite Nat.add_0_r, Pd in F2.
    destruct (star_stop _ _ _ _ Hc) as (k7 & sg & sh & Pg & Fg). rewrite <- Pg in F2.
    apply fail_seq in Fg. destruct Fg as (k8 & _ & [(si & Fg)|(si & Hi & Fg)]).
    + apply fail_not in Fg. destruct Fg as (k9 & sj & _ & Fg). apply run_char in Fg. destruct Fg as [O _]. apply F2.
      pose proof (at_of_over _ _ _ 0 _ O eq_refl) as K. unfold LexProofs.at_ in K. rewrite Nat.add_0_r in K. exact K.
    + apply fail_dot in Fg. apply run_not in Hi. destruct Hi as (Pi & _). rewrite Pi, Pg in Fg.
      apply (star_chars _ _ _ (fun c _ => c <> "`"%char)) in Hc.
      2:{ clear. intros n s s' H. apply run_seq in H. destruct H as (m & s1 & _ & H1 & H2).
          apply run_not in H1. destruct H1 as (P1 & T1 & m1 & s2 & _ & F).
          apply run_any in H2. destruct H2 as (c & O & T & E). exists c.
          split; [eapply over_eq; [exact O| |reflexivity]; congruence|]. split; [|congruence].
          intros ->. apply fail_char in F. apply F. unfold LexProofs.at_. rewrite Nat.add_0_r. congruence. }
      destruct Hc as (u & [_ U1] & _ & U3).
      assert (HE : skipn (pos sc) inp = []) by (apply skipn_all2; apply nth_error_None in Fg; exact Fg).
      rewrite HE, app_nil_r, Pb in U1. destruct Hsa as [Hsa _]. rewrite Hsa in U1.
      assert (K : In "`"%char u) by (rewrite <- U1; apply in_or_app; right; left; reflexivity).
      apply In_nth_error in K. destruct K as [i K]. destruct (U3 _ _ K) as (_ & _ & N). apply N. reflexivity.
Qed.
End Take.
