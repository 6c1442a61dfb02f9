(** * Comments and skipped input are preserved *)
From Coq Require Import List Bool Arith Ascii String ZArith Lia Permutation.
From Verif Require Import Peg PegProofs PegThunks QuickModel QuickSpec QuickProofs CypherSyntax CypherGrammar ErrModel
  CypherMatch AstTypes AstModel CypherBuild CypherExec CypherParse CypherRound CypherSpec NodeFacts CypherLoop
  CypherChain NodeHeld FlowSound FlowRun SafeProofs SafeNodes TraceSpec.
Import ListNotations.
Open Scope peg_scope.
Opaque parse_one cfuel.
Strategy expand [crun].

(** ** The nodes an action may build *)
Definition rhs_ctors (r : rhs) : list ctor := match r with RMk c _ => [c] | RArg _ => [] end.
Fixpoint stmt_ctors (s : stmt) : list ctor :=
  match s with
  | SDrop r | SLet _ r => rhs_ctors r
  | SIfNotIdent _ s => stmt_ctors s
  | _ => []
  end.
Definition ctors (t : action) : list ctor := match t with TDo l => flat_map stmt_ctors l | _ => [] end.

Definition of_ctors (l : list ctor) (n : node) : Prop := exists c, In c l /\ nty n = fst (build_call c).

Lemma build_type : forall e c os a n a', do_build e c os a = XOk (n, a') -> nty n = fst (build_call c).
Proof.
  intros e c os a n a' H. unfold do_build in H. destruct (a_prev a) as [b|]; [|discriminate].
  destruct (build_call c) as [ty bps]. destruct (eval_bparams _ _ _ _ _ _) as [[ps ops]|]; [|discriminate].
  destruct (_ && _); [discriminate|]. destruct (construct _ _ _ _ _) as [m|] eqn:EC; [|discriminate].
  destruct (a_blocks a); [discriminate|]. assert (m = n) as -> by congruence. unfold construct in EC.
  destruct (ctor_kinds ty); [|discriminate]. destruct (_ && _); [|discriminate]. injection EC as <-. reflexivity.
Qed.

Lemma rhs_typed : forall e r a v a', eval_rhs e r a = XOk (v, a') ->
  exists l, steps l a a' /\ Forall (of_ctors (rhs_ctors r)) l.
Proof.
  intros e [r|c l] a v a' H; cbn in H.
  - destruct (eval_arg r a); cbn in H; try discriminate. assert (a' = a) as -> by congruence. exists []. split; constructor.
  - destruct (eval_args l a) as [vs| | |]; cbn in H; try discriminate.
    destruct (do_build e c vs a) as [[n b]| | |] eqn:E; cbn in H; try discriminate. assert (a' = b) as -> by congruence.
    exists [n]. split; [eapply st_grow; [eapply build_grown; eauto|constructor]|].
    constructor; [|constructor]. exists c. split; [left; reflexivity|eapply build_type; eauto].
Qed.

Lemma stmt_typed : forall e s a a', exec_stmt e s a = XOk a' ->
  exists l, steps l a a' /\ Forall (of_ctors (stmt_ctors s)) l.
Proof.
  induction s as [| r | r | | bb | | | o | r | l r | r s IH]; intros a a' H;
    try (cbn in H; match type of H with xbind (eval_rhs ?e ?r ?a) _ = _ => destruct (eval_rhs e r a) as [[v b]| | |] eqn:E end;
         cbn in H; try discriminate; injection H as <-; eapply rhs_typed; eassumption).
  1,2,3,4,5,6,7,8: exists []; (split; [|constructor]).
  - cbn in H. unfold do_finished in H. destruct (fill_contexts _ _); cbn in H; try discriminate. injection H as <-.
    apply steps_keep, kept_eq; reflexivity.
  - cbn in H. destruct (eval_arg r a); cbn in H; try discriminate. injection H as <-. apply steps_keep, kept_eq; reflexivity.
  - cbn in H. destruct (eval_arg r a) as [[n|]| | |]; cbn in H; try discriminate. destruct (a_blocks a) as [|b bs] eqn:EB; [discriminate|].
    injection H as <-. apply steps_keep, kept_eq; [|reflexivity]. unfold held. cbn. rewrite EB. reflexivity.
  - injection H as <-. apply steps_keep, kept_eq; reflexivity.
  - injection H as <-. apply steps_keep, kept_eq; reflexivity.
  - cbn in H. destruct (a_prev a) eqn:EP; [|discriminate]. injection H as <-. apply steps_keep, kept_eq; reflexivity.
  - injection H as <-. apply steps_keep, kept_eq; reflexivity.
  - injection H as <-. apply steps_keep, kept_eq; reflexivity.
  - destruct l as [|k]; cbn in H; destruct (eval_rhs e r a) as [[v b]| | |] eqn:E; cbn in H; try discriminate;
      destruct (rhs_typed _ _ _ _ _ E) as [l [Hl Ht]]; exists l; (split; [|exact Ht]); rewrite <- (app_nil_r l);
      (eapply steps_app; [exact Hl|]); apply steps_keep.
    + injection H as <-. apply kept_eq; reflexivity.
    + eapply put_kept; eauto.
  - cbn in H. destruct (eval_arg r a) as [v| | |]; cbn in H; try discriminate.
    match type of H with (if ?u then _ else _) = _ => destruct u end; [|apply IH in H; exact H]. injection H as <-. exists []. split; constructor.
Qed.

Lemma of_ctors_incl : forall l m n, (forall c, In c l -> In c m) -> of_ctors l n -> of_ctors m n.
Proof. intros l m n H [c [A B]]. exists c. auto. Qed.

Lemma stmts_typed : forall e l a a', exec_stmts e l a = XOk a' ->
  exists ns, steps ns a a' /\ Forall (of_ctors (flat_map stmt_ctors l)) ns.
Proof.
  induction l as [|s l IH]; intros a a' H; cbn in H.
  - injection H as <-. exists []. split; constructor.
  - destruct (exec_stmt e s a) as [b| | |] eqn:E; cbn in H; try discriminate. destruct (stmt_typed _ _ _ _ E) as [l1 [H1 T1]].
    destruct (IH _ _ H) as [l2 [H2 T2]]. exists (l1 ++ l2). split; [eapply steps_app; eauto|]. apply Forall_app. cbn.
    split; [eapply Forall_impl; [|exact T1]|eapply Forall_impl; [|exact T2]]; intros n; apply of_ctors_incl; intros; apply in_or_app; auto.
Qed.

Lemma action_typed : forall e t p a a', exec_action e t p a = XOk a' ->
  exists ns, steps ns a a' /\ Forall (of_ctors (ctors t)) ns.
Proof.
  intros e t p a a' H. destruct (action_quiet _ _ _ _ _ H) as [K|[l ->]]; [exists []; split; [exact K|constructor]|].
  eapply stmts_typed; eauto.
Qed.

(** ** Text nodes *)
Definition texty (c : ctor) : bool := match c with K_line_comment | K_block_comment | K_skip => true | _ => false end.

Lemma texty_type : forall c n, nty n = fst (build_call c) -> is_text_node n = texty c.
Proof. intros c n H. unfold is_text_node. rewrite H. destruct c; reflexivity. Qed.

(** the thunks of a text node *)
Definition builds (c : ctor) (t : action) : Prop := t = TDo [SDrop (RMk c [])] \/ t = TDo [SLet LRet (RMk c [])].

Inductive shaped : list (action * nat) -> list (ctor * nat * nat) -> Prop :=
| sh_nil : shaped [] []
| sh_other : forall t p l vs, forallb (fun c => negb (texty c)) (ctors t) = true -> shaped l vs -> shaped ((t, p) :: l) vs
| sh_text : forall c t p q r l vs, texty c = true -> builds c t -> shaped l vs ->
    shaped ((TBlockStart, p) :: (TBlockEnd, q) :: (t, r) :: l) ((c, p, q) :: vs).

Lemma shaped_app : forall l1 v1, shaped l1 v1 -> forall l2 v2, shaped l2 v2 -> shaped (l1 ++ l2) (v1 ++ v2).
Proof. intros l1 v1 H. induction H; intros l2 v2 H2; cbn; [exact H2|apply sh_other|eapply sh_text]; eauto. Qed.

(** ** Execution *)
Definition built_text (inp : bytes) (off : nat) (v : ctor * nat * nat) : asttype * bytes * nat :=
  let '(c, p, q) := v in (fst (build_call c), slice inp p q, p + off).

Section Exec.
Variable e : xenv.
Hypothesis HP : forall p ps, x_position e p = XOk ps -> offset ps = p + offset (e_off e).

Lemma texty_steps : forall c t p q r a a', texty c = true -> builds c t ->
  exec e [(TBlockStart, p); (TBlockEnd, q); (t, r)] a = XOk a' ->
  exists n, steps [n] a a' /\ view n = built_text (e_inp e) (offset (e_off e)) (c, p, q).
Proof.
  intros c t p q r a a' Hc Ht H. cbn [exec] in H.
  destruct (exec_action e TBlockStart p a) as [a1| | |] eqn:E1; cbn in H; try discriminate.
  pose proof (action_quiet _ _ _ _ _ E1) as [S1|[? S1]]; [|discriminate S1].
  destruct (do_block_end e q a1) as [a2| | |] eqn:E2; cbn in H; try discriminate.
  assert (E2' : exec_action e TBlockEnd q a1 = XOk a2) by exact E2.
  pose proof (action_quiet _ _ _ _ _ E2') as [S2|[? S2]]; [|discriminate S2].
  assert (exists n a3, do_build e c [] a2 = XOk (n, a3) /\ steps [] a3 a') as (n & a3 & E3 & S3).
  { destruct Ht as [-> | ->]; cbn in H; destruct (do_build e c [] a2) as [[n a3]| | |]; cbn in H; try discriminate;
      injection H as <-; exists n, a3; (split; [reflexivity|]); apply steps_keep, kept_eq; reflexivity. }
  exists n. split.
  - apply (steps_app [] _ _ S1 [n]). apply (steps_app [] _ _ S2 [n]). eapply st_grow; [eapply build_grown, E3|exact S3].
  - unfold view, built_text. rewrite (build_type _ _ _ _ _ _ E3).
    cbn in E1. unfold do_block_start in E1. destruct (x_position e p) as [ps| | |] eqn:EP; cbn in E1; try discriminate.
    apply HP in EP. unfold do_block_end, close_block in E2.
    destruct (x_position e q) as [qs| | |]; cbn in E2; try discriminate.
    assert (a_blocks a1 = new_block p ps :: a_blocks a) as EB.
    { destruct (a_prev a); cbn in E1; injection E1 as <-; reflexivity. }
    rewrite EB in E2. cbn in E2.
    match type of E2 with xbind (if ?u then _ else _) _ = _ => destruct u end; [|discriminate E2]. cbn in E2.
    assert (a_prev a2 = Some (mkblk false p q ps qs [] [])) as EV by (injection E2 as <-; reflexivity).
    unfold do_build in E3. rewrite EV in E3.
    destruct c; try discriminate Hc; cbn in E3; (destruct (a_blocks a2); [discriminate E3|]); injection E3 as <- <-; cbn;
      rewrite EP; reflexivity.
Qed.

Lemma shaped_steps : forall l vs, shaped l vs -> forall a a', exec e l a = XOk a' ->
  exists ns, steps ns a a' /\ map view (filter is_text_node ns) = map (built_text (e_inp e) (offset (e_off e))) vs.
Proof.
  intros l vs H. induction H as [|t p l vs Ht _ IH|c t p q r l vs Hc Ht _ IH]; intros a a' HE.
  - injection HE as <-. exists []. split; [constructor|reflexivity].
  - cbn in HE. destruct (exec_action e t p a) as [a1| | |] eqn:E; cbn in HE; try discriminate.
    destruct (action_typed _ _ _ _ _ E) as [n1 [S1 T1]]. destruct (IH _ _ HE) as [n2 [S2 T2]].
    exists (n1 ++ n2). split; [eapply steps_app; eauto|]. rewrite filter_app.
    assert (filter is_text_node n1 = []) as ->; [|exact T2].
    clear - T1 Ht. induction T1 as [|n ns [c [C1 C2]] _ IH]; [reflexivity|]. cbn. rewrite (texty_type c) by exact C2.
    rewrite forallb_forall in Ht. apply Ht in C1. destruct (texty c); [discriminate|exact IH].
  - change ((TBlockStart, p) :: (TBlockEnd, q) :: (t, r) :: l) with ([(TBlockStart, p); (TBlockEnd, q); (t, r)] ++ l) in HE.
    rewrite exec_app in HE.
    destruct (exec e [(TBlockStart, p); (TBlockEnd, q); (t, r)] a) as [a1| | |] eqn:E; cbn [xbind] in HE; try discriminate.
    destruct (texty_steps _ _ _ _ _ _ _ Hc Ht E) as [n [S1 V1]]. destruct (IH _ _ HE) as [n2 [S2 T2]].
    exists (n :: n2). split; [apply (steps_app [n] _ _ S1 n2 _ S2)|].
    assert (is_text_node n = true) as Hn.
    { rewrite (texty_type c); [exact Hc|]. injection V1 as V1 _ _. exact V1. }
    cbn [filter]. rewrite Hn. cbn [map]. rewrite V1, T2. reflexivity.
Qed.
End Exec.

(** ** Matching *)
Fixpoint clean (x : cexp) : bool :=
  match x with
  | PAct t | PPred (QDo t) => forallb (fun c => negb (texty c)) (ctors t)
  | PSeq e1 e2 | PAlt e1 e2 => clean e1 && clean e2
  | PStar e1 | PPlus e1 | PQuery e1 | PErr e1 _ => clean e1
  | _ => true
  end.
Definition text_rule (r : rule) : bool :=
  match r with R_line_comment | R_block_comment | R_skip_to_directive | R_skip_to_statement | R_skip_to_clause => true | _ => false end.

Lemma rules_clean : forall r, text_rule r = false -> clean (CG r) = true.
Proof.
  assert (K : forallb (fun r => text_rule r || clean (CG r)) all_rules = true) by (vm_compute; reflexivity).
  intros r Hr. rewrite forallb_forall in K. specialize (K r (all_rules_complete r)). rewrite Hr in K. exact K.
Qed.

Lemma text_node_none : forall inp r p q, text_rule r = false -> text_node inp (r, p, q) = [].
Proof. intros inp r p q H. destruct r; try reflexivity; discriminate H. Qed.

(** the rules used inside those for text nodes *)
Definition calm_rule (r : rule) : bool :=
  match r with R_EOL | R_EOF | R__line_start_ => true | _ => false end.
Fixpoint calm (x : cexp) : bool :=
  match x with
  | PRule r => calm_rule r
  | PSeq e1 e2 | PAlt e1 e2 => calm e1 && calm e2
  | PStar e1 | PPlus e1 | PQuery e1 | PErr e1 _ => calm e1
  | _ => true
  end.

Section Match.
Variables (col : coloring) (off : position) (inp : bytes).
Notation runc := (run CG (get_of inp) (cprun col off)).
Notation cst := (pst action cuser).
Notation vis := (visits col off inp).

Lemma calm_visits : forall n x s, calm x = true -> flat_map (text_node inp) (vis n x s) = [].
Proof.
  induction n as [|n IH]; intros x s H; [reflexivity|].
  destruct x; cbn [visits]; cbn [calm] in H; try reflexivity.
  - destruct (runc n (CG r) s) as [s1| | |]; try reflexivity. cbn [flat_map].
    rewrite IH by (destruct r; try discriminate H; reflexivity).
    destruct r; try discriminate H; reflexivity.
  - apply andb_prop in H. destruct H as [H1 H2]. destruct (runc n x1 s) as [s1| | |]; try reflexivity.
    rewrite flat_map_app, !IH by assumption. reflexivity.
  - apply andb_prop in H. destruct H as [H1 H2]. destruct (runc n x1 s) as [s1| | |]; auto.
  - destruct (runc n x s) as [s1| | |]; try reflexivity. rewrite flat_map_app, !IH by assumption. reflexivity.
  - destruct (runc n x s) as [s1| | |]; try reflexivity. rewrite flat_map_app, !IH by assumption. reflexivity.
  - destruct (runc n x s) as [s1| | |]; auto.
  - destruct (runc n x s) as [s1| | |]; auto.
Qed.

Definition reached (s : cst) (s' : cst) : Prop := pos s <= pos s' <= List.length inp.

Lemma over_slice : forall s s' t, over inp s s' t -> slice inp (pos s) (pos s') = t.
Proof.
  intros s s' t [H1 H2]. unfold slice. rewrite H1, H2. replace (pos s + List.length t - pos s) with (List.length t) by lia.
  rewrite firstn_app, firstn_all, Nat.sub_diag. cbn. apply app_nil_r.
Qed.
Lemma over_bound : forall s s' t, over inp s s' t -> pos s <= List.length inp -> pos s' <= List.length inp.
Proof.
  intros s s' t [H1 H2] H. pose proof (f_equal (@List.length _) H2) as L. rewrite app_length, !skipn_length in L. lia.
Qed.
Lemma over_nth : forall s s' t i c, over inp s s' t -> nth_error t i = Some c -> nth_error inp (pos s + i) = Some c.
Proof.
  intros s s' t i c [H1 H2] H.
  assert (K : forall (l : bytes) p j, nth_error (skipn p l) j = nth_error l (p + j)).
  { clear. induction l as [|x l IH]; intros [|p] j; cbn; auto. destruct j; reflexivity. }
  rewrite <- K, H2, nth_error_app1; [exact H|]. apply nth_error_Some. congruence.
Qed.

Lemma no_crlf : forall n s, match runc n (PRule R_EOL) s with
  RFail _ => ~ (nth_error inp (pos s) = Some CR /\ nth_error inp (S (pos s)) = Some NL) | _ => True end.
Proof.
  intros n s. destruct (runc n (PRule R_EOL) s) as [|s1| |] eqn:E; auto. intros [H1 H2].
  destruct n as [|n]; [discriminate|]. cbn [Peg.run] in E.
  change (CG R_EOL) with ((PChar "010"%char ∥ PStr ["013"%char; "010"%char]) ⋅ (PRule R__line_start_ : cexp)) in E.
  destruct n as [|n]; [discriminate|]. cbn [Peg.run] in E.
  destruct n as [|n]; [discriminate|]. cbn [Peg.run] in E.
  destruct n as [|n]; [discriminate|]. cbn [Peg.run] in E. unfold get_of at 1 in E. rewrite H1 in E. cbn in E.
  unfold get_of in E. rewrite H1 in E. cbn in E. cbn in H2. rewrite H2 in E. cbn in E. discriminate E.
Qed.

Lemma line_no_crlf : forall n s s', runc n (PStar (PNot (PRule R_EOL) ⋅ PDot)) s = ROk s' ->
  forall i, pos s <= i < pos s' -> ~ (nth_error inp i = Some CR /\ nth_error inp (S i) = Some NL).
Proof.
  induction n as [n IH] using lt_wf_ind. intros s s' H i Hi. destruct n as [|n]; [discriminate|]. cbn [Peg.run] in H.
  destruct (runc n (PNot (PRule R_EOL) ⋅ PDot) s) as [s1|s1| |] eqn:E; try discriminate.
  - apply run_seq in E. destruct E as [m [s2 [_ [E1 E2]]]]. destruct m as [|m]; [discriminate|]. cbn [Peg.run] in E1.
    pose proof (no_crlf m s) as HN.
    destruct (runc m (PRule R_EOL) s) as [|s3| |]; try discriminate. injection E1 as <-. cbn [Peg.run restore pos] in E2.
    destruct (get_of inp (pos s)) as [c|]; [|discriminate]. injection E2 as <-.
    destruct (Nat.eq_dec i (pos s)) as [-> |Hne]; [exact HN|].
    apply (IH n (Nat.lt_succ_diag_r n) _ _ H). cbn. lia.
  - injection H as <-. cbn in Hi. lia.
Qed.

Lemma run_eol_body : forall n s s', runc n (CG R_EOL) s = ROk s' ->
  exists t, over inp s s' t /\ (t = [NL] \/ t = [CR; NL]) /\ thunks s' = thunks s.
Proof.
  intros n s s' H. apply (run_eol col off inp (S n)). cbn [Peg.run]. rewrite H. reflexivity.
Qed.

Lemma run_block : forall n s s', pos s <= List.length inp ->
  runc n (PStar (PRule R_EOL ∥ PNot (PStr (B "*/")) ⋅ PDot)) s = ROk s' ->
  thunks s' = thunks s /\
  forall i, pos s <= i < pos s' -> ~ (nth_error inp i = Some "*"%char /\ nth_error inp (S i) = Some "/"%char).
Proof.
  induction n as [n IH] using lt_wf_ind. intros s s' Hp H. destruct n as [|n]; [discriminate|]. cbn [Peg.run] in H.
  destruct (runc n (PRule R_EOL ∥ PNot (PStr (B "*/")) ⋅ PDot) s) as [s1|s1| |] eqn:E; try discriminate.
  - assert (thunks s1 = thunks s /\ pos s1 <= List.length inp /\ forall i, pos s <= i < pos s1 ->
      ~ (nth_error inp i = Some "*"%char /\ nth_error inp (S i) = Some "/"%char)) as (T1 & B1 & N1).
    { apply run_alt in E. destruct E as [m [_ [E|[s2 [_ E]]]]].
      - apply run_eol in E. destruct E as (t & O & Ht & T). split; [exact T|]. split; [eapply over_bound; eauto|].
        intros i Hi [X Y]. pose proof O as [O1 _].
        destruct (nth_error t (i - pos s)) as [c|] eqn:Ec.
        + pose proof (over_nth _ _ _ _ _ O Ec) as K. replace (pos s + (i - pos s)) with i in K by lia.
          assert (c = NL \/ c = CR) as Hc.
          { apply nth_error_In in Ec. destruct Ht as [-> | ->]; cbn in Ec; intuition. }
          destruct Hc as [-> | ->]; rewrite K in X; discriminate X.
        + apply nth_error_None in Ec. lia.
      - apply run_seq in E. destruct E as [m1 [s3 [_ [E1 E2]]]]. destruct m1 as [|m1]; [discriminate|]. cbn [Peg.run] in E1.
        destruct m1 as [|m1]; [discriminate|]. cbn [Peg.run] in E1.
        destruct (match_str (get_of inp) (B "*/") (pos (restore s s2)) (pos (restore s s2))) as [q|q] eqn:EM; [discriminate|].
        injection E1 as <-. cbn [Peg.run restore pos thunks] in E2. unfold get_of in E2.
        destruct (nth_error inp (pos s)) as [c|] eqn:Ec; [|discriminate]. injection E2 as <-. cbn [advance pos thunks restore].
        split; [reflexivity|]. split; [apply nth_error_Some; congruence|]. intros i Hi [X Y].
        assert (i = pos s) as -> by lia. cbn [restore pos] in EM. cbn [B list_ascii_of_string match_str] in EM. unfold get_of in EM.
        rewrite X in EM. cbn in EM. cbn in Y. rewrite Y in EM. cbn in EM. discriminate EM. }
    destruct (IH n (Nat.lt_succ_diag_r n) _ _ B1 H) as [T2 N2]. split; [congruence|]. intros i Hi.
    destruct (Nat.lt_ge_cases i (pos s1)) as [K|K]; [apply N1; lia|apply N2; lia].
  - injection H as <-. split; [reflexivity|]. cbn. intros; lia.
Qed.

Lemma chop_ok : forall t eol, ~ In NL t ->
  (eol = [] \/ eol = [CR; NL] \/ eol = [NL] /\ forall u, t <> u ++ [CR]) -> chop_eol (t ++ eol) = t.
Proof.
  intros t eol Ht He. unfold chop_eol. rewrite rev_app_distr. destruct He as [-> |[-> |[-> Hu]]]; cbn [rev app].
  - rewrite app_nil_r. destruct (rev t) as [|c w] eqn:Er; [reflexivity|].
    assert (In c t) as Hc by (apply in_rev; rewrite Er; left; reflexivity).
    destruct c as [[|] [|] [|] [|] [|] [|] [|] [|]]; try reflexivity. contradiction.
  - apply rev_involutive.
  - destruct (rev t) as [|c w] eqn:Er; [rewrite <- (rev_involutive t), Er; reflexivity|].
    assert (t = rev w ++ [c]) as Et by (rewrite <- (rev_involutive t), Er; reflexivity).
    destruct c as [[|] [|] [|] [|] [|] [|] [|] [|]]; try (symmetry; exact Et).
    exfalso. exact (Hu _ Et).
Qed.

(** what a use of a rule leaves: thunks, and the text nodes they stand for *)
Definition leaves_text (vs0 : list (rule * nat * nat)) (s s' : cst) : Prop :=
  exists l vs, thunks s' = rev l ++ thunks s /\ shaped l vs /\
    map (built_text inp 0) vs = flat_map (text_node inp) vs0.

Lemma leaves_text_one : forall v s s' c t p q r post, texty c = true -> builds c t ->
  thunks s' = rev ([(TBlockStart, p); (TBlockEnd, q); (t, r)] ++ post) ++ thunks s ->
  (post = [] \/ exists k, post = [(TDo [SEof], k)]) ->
  text_node inp v = [(fst (build_call c), slice inp p q, p)] -> leaves_text [v] s s'.
Proof.
  intros v s s' c t p q r post Hc Ht HT Hpost HV. exists ([(TBlockStart, p); (TBlockEnd, q); (t, r)] ++ post), [(c, p, q)].
  split; [exact HT|]. split.
  - eapply sh_text; eauto. destruct Hpost as [-> |[k ->]]; [constructor|]. apply sh_other; [reflexivity|constructor].
  - cbn. rewrite HV, Nat.add_0_r. reflexivity.
Qed.

Lemma line_rule : forall n s s', pos s <= List.length inp -> runc n (CG R_line_comment) s = ROk s' ->
  exists t, line_comment_text (slice inp (pos s) (pos s')) (skipn (pos s') inp) t /\
    leaves_text [(R_line_comment, pos s, pos s')] s s'.
Proof.
  intros n s s' Hp H.
  change (CG R_line_comment) with (PStr (B "//") ⋅ PPred (QDo TBlockStart) ⋅ PStar (PNot (PRule R_EOL) ⋅ PDot) ⋅
      PPred (QDo TBlockEnd) ⋅ PAct (TDo [SDrop (RMk K_line_comment [])]) ⋅ (PRule R_EOL ∥ PRule R_EOF)) in H.
  apply run_seq in H. destruct H as [m3 [sa [_ [Ha H]]]]. apply run_str in Ha. destruct Ha as [Oa Ta].
  apply run_seq in H. destruct H as [m4 [sb [_ [Hb H]]]]. apply run_pdo in Hb. destruct Hb as [Ob Tb].
  apply run_seq in H. destruct H as [m5 [sc [_ [Hc H]]]].
  assert (Hpb : pos sb <= List.length inp) by (rewrite Ob; eapply over_bound; eauto).
  destruct (run_line _ _ _ _ _ _ Hpb Hc) as (t & Oc & Nt & Tc). pose proof (line_no_crlf _ _ _ Hc) as NC.
  apply run_seq in H. destruct H as [m6 [sd [_ [Hd H]]]]. apply run_pdo in Hd. destruct Hd as [Od Td].
  apply run_seq in H. destruct H as [m7 [se [_ [He H]]]]. apply run_act in He. destruct He as [Oe Te].
  assert (Ose : over inp s se (B "//" ++ t)).
  { apply (over_app _ s sa se); [exact Oa|]. destruct Oc as [C1 C2]. split; [lia|]. rewrite <- Ob, C2. f_equal. f_equal. lia. }
  assert (Epb : pos sb = pos s + 2) by (rewrite Ob; destruct Oa as [A1 _]; rewrite A1; reflexivity).
  assert (SL : slice inp (pos sb) (pos sd) = t).
  { rewrite Od. apply over_slice. exact Oc. }
  assert (exists eol post, over inp s s' (B "//" ++ t ++ eol) /\ thunks s' = rev post ++ thunks se /\
    (post = [] \/ exists k, post = [(TDo [SEof], k)]) /\
    (eol = [] /\ skipn (pos s') inp = [] \/ eol = [CR; NL] \/ eol = [NL] /\ forall u, t <> u ++ [CR]))
    as (eol & post & Oz & Tz & Hpost & Heol).
  { apply run_alt in H. destruct H as [m8 [_ [H|[s2 [_ H]]]]].
    - apply run_eol in H. destruct H as (w & W1 & W2 & W3). exists w, []. split.
      { change (B "//" ++ t ++ w) with ((B "//" ++ t) ++ w). apply (over_app _ s se s'); auto. }
      split; [exact W3|]. split; [left; reflexivity|]. right. destruct W2 as [-> | ->]; [|left; reflexivity].
      right. split; [reflexivity|]. intros u ->. apply (NC (pos sb + List.length u)).
      + destruct Oc as [C1 _]. rewrite app_length in C1. cbn in C1. lia.
      + split.
        * eapply over_nth; [exact Oc|]. rewrite nth_error_app2, Nat.sub_diag by lia. reflexivity.
        * replace (S (pos sb + List.length u)) with (pos se + 0).
          { eapply over_nth; [exact W1|reflexivity]. }
          destruct Oc as [C1 _]. rewrite app_length in C1. cbn in C1. lia.
    - apply run_rule in H. destruct H as [m9 [_ H]]. change (CG R_EOF) with (PNot (PDot : cexp) ⋅ PAct (TDo [SEof])) in H.
      apply run_seq in H. destruct H as [m10 [s3 [_ [H Hx]]]]. apply run_act in Hx. destruct Hx as [Ox Tx].
      destruct m10 as [|m10]; [discriminate|]. cbn [Peg.run] in H. destruct m10 as [|m10]; [discriminate|]. cbn [Peg.run restore pos] in H.
      unfold get_of in H. destruct (nth_error inp (pos se)) eqn:En; [discriminate|]. injection H as <-. cbn in Ox.
      exists [], [(TDo [SEof], pos se)]. rewrite app_nil_r. split; [destruct Ose as [X Y]; split; rewrite Ox; assumption|].
      split; [exact Tx|]. split; [right; eauto|]. left. split; [reflexivity|].
      apply skipn_all2. rewrite Ox. apply nth_error_None. exact En. }
  exists t. pose proof (over_slice _ _ _ Oz) as SZ. split.
  - unfold line_comment_text. rewrite SZ. split; [exact Nt|].
    destruct Heol as [[-> E]|[-> |[-> E]]]; [left; split; [cbn; rewrite app_nil_r; reflexivity|exact E]|right; left; reflexivity|].
    right. right. auto.
  - eapply (leaves_text_one _ _ _ K_line_comment (TDo [SDrop (RMk K_line_comment [])]) (pos sb) (pos sd) (pos sd) post);
      [reflexivity|left; reflexivity| |exact Hpost|].
    + rewrite Tz, Te, Td, Tc, Tb, Ta, rev_app_distr, <- app_assoc. cbn. rewrite Od, Ob. reflexivity.
    + cbn [text_node build_call fst]. rewrite SZ, SL, Epb. unfold between_line. change (skipn 2 (B "//" ++ t ++ eol)) with (t ++ eol).
      rewrite chop_ok; [reflexivity|exact Nt|]. destruct Heol as [[-> _]|[-> |[-> E]]]; auto.
Qed.

Lemma block_rule : forall n s s', pos s <= List.length inp -> runc n (CG R_block_comment) s = ROk s' ->
  exists t, block_comment_text (slice inp (pos s) (pos s')) t /\
    leaves_text [(R_block_comment, pos s, pos s')] s s'.
Proof.
  intros n s s' Hp H.
  change (CG R_block_comment) with (PStr (B "/*") ⋅ PPred (QDo TBlockStart) ⋅ PStar (PRule R_EOL ∥ PNot (PStr (B "*/")) ⋅
      PDot) ⋅ PPred (QDo TBlockEnd) ⋅ PAct (TDo [SDrop (RMk K_block_comment [])]) ⋅ PErr (PStr (B "*/")) (QErr (B "*/"))) in H.
  apply run_seq in H. destruct H as [m3 [sa [_ [Ha H]]]]. apply run_str in Ha. destruct Ha as [Oa Ta].
  apply run_seq in H. destruct H as [m4 [sb [_ [Hb H]]]]. apply run_pdo in Hb. destruct Hb as [Ob Tb].
  apply run_seq in H. destruct H as [m5 [sc [_ [Hc H]]]].
  assert (Hpb : pos sb <= List.length inp) by (rewrite Ob; eapply over_bound; eauto).
  destruct (over_any _ _ _ _ _ _ _ Hpb Hc) as (t & Oc). destruct (run_block _ _ _ Hpb Hc) as [Tc NB].
  apply run_seq in H. destruct H as [m6 [sd [_ [Hd H]]]]. apply run_pdo in Hd. destruct Hd as [Od Td].
  apply run_seq in H. destruct H as [m7 [se [_ [He H]]]]. apply run_act in He. destruct He as [Oe Te].
  assert (over inp se s' (B "*/") /\ thunks s' = thunks se) as [Oz Tz].
  { destruct m7 as [|m7]; [discriminate|]. cbn [Peg.run] in H. destruct (runc m7 (PStr (B "*/")) se) as [sz|sz| |] eqn:Ez; try discriminate.
    - injection H as <-. apply run_str in Ez. exact Ez.
    - destruct (run_pred _ _ _ sz); discriminate. }
  assert (Epb : pos sb = pos s + 2) by (rewrite Ob; destruct Oa as [A1 _]; rewrite A1; reflexivity).
  assert (Os : over inp s s' (B "/*" ++ t ++ B "*/")).
  { apply (over_app _ s sa s'); [exact Oa|]. apply (over_app _ sa se s'); [|exact Oz].
    destruct Oc as [C1 C2]. split; [lia|]. rewrite <- Ob, C2. f_equal. f_equal. lia. }
  pose proof (over_slice _ _ _ Os) as SZ. exists t. split.
  - split; [exact SZ|]. intros u w E.
    assert (List.length u < List.length t) as Hlt.
    { apply (f_equal (@List.length _)) in E. rewrite !app_length in E. cbn in E. lia. }
    assert (Oe' : over inp sb se t) by (destruct Oc as [C1 C2]; split; [lia|rewrite C2; f_equal; f_equal; lia]).
    assert (O2 : over inp sb s' ((t ++ B "*") ++ B "/")).
    { rewrite <- app_assoc. change (B "*" ++ B "/") with (B "*/"). eapply over_app; eauto. }
    apply (NB (pos sb + List.length u)).
    + destruct Oc as [C1 _]. lia.
    + rewrite E in O2. split.
      * eapply over_nth; [exact O2|]. rewrite <- app_assoc, nth_error_app2, Nat.sub_diag by lia. reflexivity.
      * replace (S (pos sb + List.length u)) with (pos sb + S (List.length u)) by lia.
        eapply over_nth; [exact O2|]. rewrite <- app_assoc, nth_error_app2 by lia.
        replace (S (List.length u) - List.length u) with 1 by lia. reflexivity.
  - eapply (leaves_text_one _ _ _ K_block_comment (TDo [SDrop (RMk K_block_comment [])]) (pos sb) (pos sd) (pos sd) []);
      [reflexivity|left; reflexivity| |left; reflexivity|].
    + rewrite Tz, Te, Td, Tc, Tb, Ta. cbn. rewrite Od, Ob. reflexivity.
    + cbn [text_node build_call fst]. rewrite SZ, Od, (over_slice _ _ _ Oc), Epb. unfold between_block.
      change (skipn 2 (B "/*" ++ t ++ B "*/")) with (t ++ B "*/"). rewrite !app_length. cbn [List.length B list_ascii_of_string].
      replace (2 + (List.length t + 2) - 4) with (List.length t) by lia.
      rewrite firstn_app, firstn_all, Nat.sub_diag. cbn. rewrite app_nil_r. reflexivity.
Qed.

Lemma star_not_dot : forall x n s s', runc n (PStar (PNot x ⋅ PDot)) s = ROk s' -> thunks s' = thunks s.
Proof.
  intros x. induction n as [n IH] using lt_wf_ind. intros s s' H. destruct n as [|n]; [discriminate|]. cbn [Peg.run] in H.
  destruct (runc n (PNot x ⋅ PDot) s) as [s1|s1| |] eqn:E; try discriminate.
  - rewrite (IH n (Nat.lt_succ_diag_r n) _ _ H).
    apply run_seq in E. destruct E as [m [s2 [_ [E1 E2]]]]. destruct m as [|m]; [discriminate|]. cbn [Peg.run] in E1.
    destruct (runc m x s) as [|s3| |]; try discriminate. injection E1 as <-. cbn [Peg.run restore pos] in E2.
    destruct (get_of inp (pos s)) as [c|]; [|discriminate]. injection E2 as <-. reflexivity.
  - injection H as <-. reflexivity.
Qed.

Lemma skip_rule : forall r x n s s',
  CG r = (PPred (QDo TBlockStart) ⋅ PDot ⋅ PStar (PNot x ⋅ PDot) ⋅ PPred (QDo TBlockEnd) ⋅
          PAct (TDo [SLet LRet (RMk K_skip [])]) : cexp) ->
  (forall p q, text_node inp (r, p, q) = [(T_ERROR, slice inp p q, p)]) ->
  runc n (CG r) s = ROk s' -> pos s < pos s' /\ leaves_text [(r, pos s, pos s')] s s'.
Proof.
  intros r x n s s' HG HV H. rewrite HG in H.
  apply run_seq in H. destruct H as [m3 [sa [_ [Ha H]]]]. apply run_pdo in Ha. destruct Ha as [Oa Ta].
  apply run_seq in H. destruct H as [m4 [sb [_ [Hb H]]]].
  destruct m4 as [|m4]; [discriminate|]. cbn [Peg.run] in Hb. destruct (get_of inp (pos sa)); [|discriminate]. injection Hb as <-.
  apply run_seq in H. destruct H as [m5 [sc [_ [Hc H]]]]. pose proof (star_not_dot _ _ _ _ Hc) as Tc.
  pose proof (run_ok_pos _ _ _ _ _ _ _ Hc) as Pc. cbn [advance pos thunks] in *.
  apply run_seq in H. destruct H as [m6 [sd [_ [Hd H]]]]. apply run_pdo in Hd. destruct Hd as [Od Td].
  apply run_act in H. destruct H as [Oe Te]. split; [lia|].
  eapply (leaves_text_one _ _ _ K_skip (TDo [SLet LRet (RMk K_skip [])]) (pos s) (pos sc) (pos sd) []);
    [reflexivity|right; reflexivity| |left; reflexivity|].
  - rewrite Te, Td, Tc, Ta. reflexivity.
  - rewrite HV. replace (pos s') with (pos sc) by congruence. reflexivity.
Qed.

Lemma leaves_text_eq : forall v1 v2 s s', flat_map (text_node inp) v1 = flat_map (text_node inp) v2 ->
  leaves_text v1 s s' -> leaves_text v2 s s'.
Proof. intros v1 v2 s s' E (l & vs & H1 & H2 & H3). exists l, vs. rewrite <- E. auto. Qed.

Lemma leaves_text_nil : forall s s', thunks s' = thunks s -> leaves_text [] s s'.
Proof. intros s s' H. exists [], []. split; [exact H|]. split; [constructor|reflexivity]. Qed.

Lemma leaves_text_app : forall v1 v2 s s1 s2, leaves_text v1 s s1 -> leaves_text v2 s1 s2 -> leaves_text (v1 ++ v2) s s2.
Proof.
  intros v1 v2 s s1 s2 (l1 & w1 & A1 & A2 & A3) (l2 & w2 & B1 & B2 & B3). exists (l1 ++ l2), (w1 ++ w2).
  split; [rewrite B1, A1, rev_app_distr, app_assoc; reflexivity|]. split; [apply shaped_app; assumption|].
  rewrite map_app, flat_map_app, A3, B3. reflexivity.
Qed.

Lemma text_rule_run : forall r n s s', text_rule r = true -> pos s <= List.length inp -> runc n (CG r) s = ROk s' ->
  leaves_text ((r, pos s, pos s') :: vis n (CG r) s) s s'.
Proof.
  intros r n s s' Hr Hp H.
  assert (calm (CG r) = true) as HC by (destruct r; try discriminate Hr; reflexivity).
  apply (leaves_text_eq [(r, pos s, pos s')]).
  { cbn [flat_map]. rewrite (calm_visits n (CG r) s HC). reflexivity. }
  destruct r; try discriminate Hr.
  - destruct (line_rule _ _ _ Hp H) as [t [_ K]]. exact K.
  - destruct (block_rule _ _ _ Hp H) as [t [_ K]]. exact K.
  - eapply skip_rule; [reflexivity|reflexivity|exact H].
  - eapply skip_rule; [reflexivity|reflexivity|exact H].
  - eapply skip_rule; [reflexivity|reflexivity|exact H].
Qed.

Lemma run_shaped : forall n e s s', clean e = true -> pos s <= List.length inp -> runc n e s = ROk s' ->
  leaves_text (vis n e s) s s'.
Proof.
  induction n as [|n IH]; intros e s s' HC Hp Hx; [discriminate|].
  destruct e; cbn [Peg.run] in Hx; cbn [visits]; cbn [clean] in HC.
  - destruct (get_of inp (pos s)); [|discriminate]. injection Hx as <-. apply leaves_text_nil. reflexivity.
  - destruct (get_of inp (pos s)); [destruct (beq c a)|]; try discriminate. injection Hx as <-. apply leaves_text_nil. reflexivity.
  - destruct (match_str _ s0 (pos s) (pos s)); [|discriminate]. injection Hx as <-. apply leaves_text_nil. reflexivity.
  - destruct (get_of inp (pos s)); [destruct (in_class cs a)|]; try discriminate. injection Hx as <-. apply leaves_text_nil. reflexivity.
  - destruct (runc n (CG r) s) as [s1|s1| |] eqn:H1; try discriminate. injection Hx as <-.
    destruct (text_rule r) eqn:Hr; [apply text_rule_run; assumption|].
    eapply leaves_text_eq; [|apply IH; [apply rules_clean, Hr|exact Hp|exact H1]].
    cbn [flat_map]. rewrite (text_node_none _ _ _ _ Hr). reflexivity.
  - apply andb_prop in HC. destruct HC as [C1 C2]. destruct (runc n e1 s) as [s1|s1| |] eqn:H1; try discriminate.
    pose proof (match_bound col off inp n e1 s s1 Hp H1) as Hp1. eapply leaves_text_app; eauto.
  - apply andb_prop in HC. destruct HC as [C1 C2]. destruct (runc n e1 s) as [s1|s1| |] eqn:H1; try discriminate.
    + injection Hx as <-. eauto.
    + apply (IH _ (restore s s1)) in Hx; auto.
  - destruct (runc n e s) as [s1|s1| |] eqn:H1; try discriminate.
    + pose proof (match_bound col off inp n e s s1 Hp H1) as Hp1. eapply leaves_text_app; eauto.
    + injection Hx as <-. apply leaves_text_nil. reflexivity.
  - destruct (runc n e s) as [s1|s1| |] eqn:H1; try discriminate.
    pose proof (match_bound col off inp n e s s1 Hp H1) as Hp1. eapply leaves_text_app; eauto.
  - destruct (runc n e s) as [s1|s1| |] eqn:H1; try discriminate.
    + injection Hx as <-. eauto.
    + injection Hx as <-. apply leaves_text_nil. reflexivity.
  - destruct (runc n e s) as [s1|s1| |] eqn:H1; try discriminate. injection Hx as <-. apply leaves_text_nil. reflexivity.
  - destruct (runc n e s) as [s1|s1| |] eqn:H1; try discriminate. injection Hx as <-. apply leaves_text_nil. reflexivity.
  - injection Hx as <-. exists [(a, pos s)], []. split; [reflexivity|]. split; [|reflexivity]. apply sh_other; [exact HC|constructor].
  - unfold run_pred in Hx. destruct (cprun col off q (pos s) (get_of inp (pos s)) (user s)) as [[[b u] l]|] eqn:Hc; [|discriminate].
    destruct b; [|discriminate]. injection Hx as <-.
    destruct q; cbn [cprun] in Hc;
      try (destruct (c_op (user s)); [|discriminate]);
      try (destruct (do_err _ _ _ _ _); [|discriminate]);
      injection Hc; intros; subst;
      try (apply leaves_text_nil; reflexivity).
    exists [(a, pos s)], []. split; [reflexivity|]. split; [|reflexivity]. apply sh_other; [exact HC|constructor].
  - destruct (runc n e s) as [s1|s1| |] eqn:H1; try discriminate.
    + injection Hx as <-. eauto.
    + destruct (run_pred (get_of inp) (cprun col off) q s1); discriminate.
Qed.

(** every use of a comment rule is a comment *)
Notation good_visit := (use_ok inp).

Lemma between_line_eq : forall s rest t, line_comment_text s rest t -> between_line s = t.
Proof.
  intros s rest t [H1 H2]. unfold between_line.
  destruct H2 as [[-> _]|[-> |[-> E]]].
  - change (skipn 2 (B "//" ++ t)) with t. rewrite <- (app_nil_r t) at 1. apply chop_ok; auto.
  - apply chop_ok; auto.
  - apply chop_ok; auto.
Qed.
Lemma between_block_eq : forall s t, block_comment_text s t -> between_block s = t.
Proof.
  intros s t [-> _]. unfold between_block. change (skipn 2 (B "/*" ++ t ++ B "*/")) with (t ++ B "*/").
  rewrite !app_length. cbn [List.length B list_ascii_of_string].
  replace (2 + (List.length t + 2) - 4) with (List.length t) by lia.
  rewrite firstn_app, firstn_all, Nat.sub_diag. cbn. apply app_nil_r.
Qed.

Lemma visits_good : forall n e s, pos s <= List.length inp -> Forall good_visit (vis n e s).
Proof.
  induction n as [|n IH]; intros e s Hp; [constructor|].
  destruct e; cbn [visits]; try constructor.
  - destruct (runc n (CG r) s) as [s1|s1| |] eqn:H1; try constructor; [|auto].
    split; [|split].
    + split; [exact (run_ok_pos _ _ _ _ _ _ _ H1)|exact (match_bound col off inp n _ s s1 Hp H1)].
    + intros ->. destruct (line_rule _ _ _ Hp H1) as [t [K _]]. rewrite (between_line_eq _ _ _ K). exact K.
    + intros ->. destruct (block_rule _ _ _ Hp H1) as [t [K _]]. rewrite (between_block_eq _ _ K). exact K.
  - destruct (runc n e1 s) as [s1|s1| |] eqn:H1; try constructor.
    pose proof (match_bound col off inp n e1 s s1 Hp H1) as Hp1. apply Forall_app. auto.
  - destruct (runc n e1 s) as [s1|s1| |] eqn:H1; try constructor; auto.
  - destruct (runc n e s) as [s1|s1| |] eqn:H1; try constructor.
    pose proof (match_bound col off inp n e s s1 Hp H1) as Hp1. apply Forall_app. auto.
  - destruct (runc n e s) as [s1|s1| |] eqn:H1; try constructor.
    pose proof (match_bound col off inp n e s s1 Hp H1) as Hp1. apply Forall_app. auto.
  - destruct (runc n e s) as [s1|s1| |] eqn:H1; try constructor; auto.
  - destruct (runc n e s) as [s1|s1| |] eqn:H1; try constructor; auto.
Qed.
End Match.

(** ** A round *)
Lemma view_forest : forall ts n,
  map view (filter is_text_node (forest (fst (set_ordinals_all ts n)))) = map view (filter is_text_node (forest ts)).
Proof.
  intros ts n. destruct (ordinals_all ts n) as [_ [H _]]. apply (f_equal forest) in H. rewrite !forest_erase in H.
  revert H. generalize (forest (fst (set_ordinals_all ts n))) (forest ts). clear.
  induction l as [|x l IH]; intros [|y m] H; try discriminate; [reflexivity|]. cbn [map] in H.
  assert (erase x = erase y /\ map erase l = map erase m) as [E1 E2] by (split; congruence).
  assert (is_text_node x = is_text_node y /\ view x = view y) as [V1 V2].
  { unfold is_text_node, view, text_of. destruct x, y. cbn in E1 |- *. injection E1 as _ -> -> -> _. auto. }
  cbn [filter]. rewrite V1. destruct (is_text_node y); cbn [map]; [rewrite V2; f_equal|]; apply IH; exact E2.
Qed.

Lemma filter_perm : forall (A : Type) (f : A -> bool) l m, Permutation l m -> Permutation (filter f l) (filter f m).
Proof.
  intros A f l m H. induction H as [|x l m _ IH|x y l|l m k _ IH1 _ IH2]; cbn.
  - constructor.
  - destruct (f x); auto.
  - destruct (f x), (f y); auto. constructor.
  - eapply Permutation_trans; eauto.
Qed.

Definition later (k : nat) (v : asttype * bytes * nat) : asttype * bytes * nat := let '(t, s, p) := v in (t, s, p + k).

Lemma built_later : forall inp k vs, map (built_text inp k) vs = map (later k) (map (built_text inp 0) vs).
Proof. intros inp k vs. rewrite map_map. apply map_ext. intros [[c p] q]. cbn. rewrite Nat.add_0_r. reflexivity. Qed.

Lemma x_position_offset : forall e p ps, x_position e p = XOk ps -> offset ps = p + offset (e_off e).
Proof.
  intros e p ps H. unfold x_position, of_opt, input_position in H. destruct (find_line _ p) as [[d t]|]; [|discriminate].
  injection H as <-. reflexivity.
Qed.

Lemma produced_text : forall cf la fl inp o y p a u en seg,
  produced cf la (start_rule fl) inp o y p a u en seg ->
  exists s, crun (cf_color cf) (y_off y) (cfuel inp) inp (PRule (start_rule fl)) (match_start y) = ROk s /\ p = pos s /\
    let vs := visits (cf_color cf) (y_off y) inp (cfuel inp) (PRule (start_rule fl)) (match_start y) in
    Forall (use_ok inp) vs /\
    Permutation (map view (filter is_text_node (forest (s_roots seg))))
      (map (later (offset (y_off y))) (flat_map (text_node inp) vs)).
Proof.
  intros cf la fl inp o y p a u en seg [[lines [HR _]] _ _ _ ->].
  pose proof (round_safe cf la (start_rule fl) inp y CG table (result_types fl) (start_entry fl)
    (adapted_CG _ _ _) table_checked (table_ends fl)) as H. rewrite HR in H.
  destruct H as [_ [E2 [_ [E4 [b [B1 _]]]]]].
  rewrite parse_one_eq in HR. apply finish_one_ok in HR. revert HR. unfold crun. generalize (cfuel inp). intros k HR.
  destruct HR as [s [HM [-> [-> [-> [HE _]]]]]]. exists s. split; [exact HM|]. split; [reflexivity|]. cbv zeta.
  split; [apply visits_good; apply Nat.le_0_l|].
  destruct (run_shaped (cf_color cf) (y_off y) inp k (PRule (start_rule fl)) (match_start y) s eq_refl (Nat.le_0_l _) HM)
    as (l & vs & L1 & L2 & L3).
  cbn [match_start thunks] in L1. rewrite app_nil_r in L1. rewrite L1, rev_involutive in HE.
  destruct (shaped_steps _ (x_position_offset _) _ _ L2 _ _ HE) as (ns & N1 & N2). cbn [e_inp e_off] in N2.
  apply steps_all in N1. unfold held in N1. rewrite E2, E4, B1 in N1. cbn in N1. rewrite !app_nil_r in N1.
  unfold round_segment. rewrite B1.
  destruct (make_segment_fields o (mkrange (y_off y) en) (a_errs a) (b_kids b) (a_result a) (a_eof a)) as [_ [_ [-> _]]].
  rewrite view_forest, <- L3, <- built_later, <- N2. apply Permutation_map, filter_perm.
  eapply Permutation_trans; [exact N1|]. apply Permutation_sym, Permutation_rev.
Qed.

(** ** A call *)
Lemma chain_at : forall cf la r inp o y segs c, chain cf la r inp o y segs c ->
  Forall (fun seg => exists d o' y' p a u en, d <= List.length inp /\ produced cf la r (skipn d inp) o' y' p a u en seg /\
     offset (y_off y') = d + offset (y_off y)) segs.
Proof.
  intros cf la r inp o y segs c H. induction H as [| |inp o y p a u en seg H _|inp o y p a u en seg segs c H _ _ IH]; try constructor.
  - exists 0, o, y, p, a, u, en. split; [apply Nat.le_0_l|]. split; [exact H|reflexivity].
  - constructor.
  - exists 0, o, y, p, a, u, en. split; [apply Nat.le_0_l|]. split; [exact H|reflexivity].
  - pose proof (pd_bound _ _ _ _ _ _ _ _ _ _ _ H) as HB. pose proof (produced_offset _ _ _ _ _ _ _ _ _ _ _ H) as HO.
    eapply Forall_impl; [|exact IH]. intros sg (d & o' & y' & p' & a' & u' & en' & D1 & D2 & D3).
    exists (d + p), o', y', p', a', u', en'. rewrite skipn_length in D1. split; [lia|]. split.
    + replace (skipn (d + p) inp) with (skipn d (skipn p inp)); [exact D2|].
      clear. revert inp. induction p as [|p IH]; intros inp; [rewrite Nat.add_0_r; reflexivity|].
      rewrite Nat.add_succ_r. destruct inp; [cbn; apply skipn_nil|apply IH].
    + cbn [next_carry y_off] in D3. lia.
Qed.

Lemma skipn_plus : forall (A : Type) p d (l : list A), skipn p (skipn d l) = skipn (d + p) l.
Proof.
  intros A p d. induction d as [|d IH]; intros l; [reflexivity|]. destruct l; [cbn; apply skipn_nil|]. exact (IH l).
Qed.

Lemma slice_shift : forall inp d p q, slice (skipn d inp) p q = slice inp (d + p) (d + q).
Proof. intros. unfold slice. rewrite skipn_plus. f_equal. lia. Qed.

Lemma text_node_shift : forall inp d v, text_node inp (moved d v) = map (later d) (text_node (skipn d inp) v).
Proof.
  intros inp d [[r p] q]. unfold moved. destruct r; try reflexivity; cbn [text_node map later];
    rewrite slice_shift; (apply f_equal2; [|reflexivity]); (apply f_equal2; [reflexivity|lia]).
Qed.

Lemma use_ok_shift : forall inp d v, d <= List.length inp -> use_ok (skipn d inp) v -> use_ok inp (moved d v).
Proof.
  intros inp d [[r p] q] Hd [H1 [H2 H3]]. unfold moved, use_ok in *. rewrite skipn_length in H1.
  rewrite skipn_plus, slice_shift in H2. rewrite slice_shift in H3. split; [lia|]. auto.
Qed.

Lemma parse_each_text : forall cf la cb fl inp ret segs last seg,
  parse_each cf la cb fl inp = PRet ret segs last -> In seg segs ->
  exists uses, matched_with cf fl inp seg uses /\ Forall (use_ok inp) uses /\
    Permutation (map view (filter is_text_node (forest (s_roots seg))))
      (map (at_offset (offset (cf_position cf))) (flat_map (text_node inp) uses)).
Proof.
  intros cf la cb fl inp ret segs last seg H Hs. apply parse_each_chain in H. destruct H as [c [H _]].
  apply chain_at in H. rewrite Forall_forall in H. destruct (H seg Hs) as (d & o & y & p & a & u & en & D1 & D2 & D3).
  cbn [carry0 y_off] in D3.
  pose proof (produced_offset _ _ _ _ _ _ _ _ _ _ _ D2) as HO. destruct (produced_seg _ _ _ _ _ _ _ _ _ _ _ D2) as [S1 S2].
  destruct (produced_text _ _ _ _ _ _ _ _ _ _ _ D2) as (s & M & -> & U1 & U2).
  eexists. split; [|split].
  - exists d, y, s. rewrite S1, S2. split; [exact D3|]. split; [exact M|]. split; [lia|]. reflexivity.
  - rewrite Forall_map. eapply Forall_impl; [|exact U1]. intros v. apply use_ok_shift. exact D1.
  - match type of U2 with Permutation _ ?x => match goal with |- Permutation _ ?z => replace z with x; [exact U2|] end end.
    rewrite D3. generalize (visits (cf_color cf) (y_off y) (skipn d inp) (cfuel (skipn d inp)) (PRule (start_rule fl)) (match_start y)).
    induction l as [|v l IH]; [reflexivity|]. cbn [flat_map map]. rewrite text_node_shift, !map_app, IH, map_map. f_equal.
    apply map_ext. intros [[t z] i]. cbn. f_equal. lia.
Qed.

(** ** No client commands *)
Definition commanding (r : rule) : bool :=
  match r with R___entry_points | R_directive | R__directive | R___directive | R_client_command => true | _ => false end.
Definition no_command (t : action) : bool :=
  forallb (fun c => negb (type_eqb (fst (build_call c)) T_COMMAND)) (ctors t).
Fixpoint commandless (x : cexp) : bool :=
  match x with
  | PAct t | PPred (QDo t) => no_command t
  | PRule r => negb (commanding r)
  | PSeq e1 e2 | PAlt e1 e2 => commandless e1 && commandless e2
  | PStar e1 | PPlus e1 | PQuery e1 | PErr e1 _ => commandless e1
  | _ => true
  end.

Lemma rules_commandless : forall r, commanding r = false -> commandless (CG r) = true.
Proof.
  assert (K : forallb (fun r => commanding r || commandless (CG r)) all_rules = true) by (vm_compute; reflexivity).
  intros r Hr. rewrite forallb_forall in K. specialize (K r (all_rules_complete r)). rewrite Hr in K. exact K.
Qed.

Lemma emits_commandless : forall e l, emits CG e l -> commandless e = true -> forallb (fun t => no_command (fst t)) l = true.
Proof.
  intros e l H. induction H; cbn [commandless]; intros HC; try reflexivity; auto;
    try (apply andb_prop in HC; destruct HC as [C1 C2]); try (rewrite forallb_app, ?IHemits1, ?IHemits2; auto); auto.
  - apply IHemits, rules_commandless. destruct (commanding r); [discriminate|reflexivity].
  - cbn. rewrite HC. reflexivity.
  - cbn. rewrite HC. reflexivity.
Qed.

Lemma exec_commandless : forall e l a a', forallb (fun t => no_command (fst t)) l = true -> exec e l a = XOk a' ->
  exists ns, steps ns a a' /\ Forall (fun n => nty n <> T_COMMAND) ns.
Proof.
  induction l as [|[t p] l IH]; intros a a' HC HE.
  - injection HE as <-. exists []. split; constructor.
  - cbn in HC. apply andb_prop in HC. destruct HC as [C1 C2]. cbn in HE.
    destruct (exec_action e t p a) as [a1| | |] eqn:E; cbn in HE; try discriminate.
    destruct (action_typed _ _ _ _ _ E) as [n1 [S1 T1]]. destruct (IH _ _ C2 HE) as [n2 [S2 T2]].
    exists (n1 ++ n2). split; [eapply steps_app; eauto|]. apply Forall_app. split; [|exact T2].
    eapply Forall_impl; [|exact T1]. intros n [c [D1 D2]] D3. unfold no_command in C1. rewrite forallb_forall in C1. apply C1 in D1.
    rewrite <- D2, D3 in D1. discriminate D1.
Qed.

Lemma produced_commandless : forall cf la fl inp o y p a u en seg, pf_only_statements fl = true ->
  produced cf la (start_rule fl) inp o y p a u en seg ->
  Forall (fun n => nty n <> T_COMMAND) (forest (s_roots seg)).
Proof.
  intros cf la fl inp o y p a u en seg Hfl [[lines [HR _]] _ _ _ ->].
  pose proof (round_safe cf la (start_rule fl) inp y CG table (result_types fl) (start_entry fl)
    (adapted_CG _ _ _) table_checked (table_ends fl)) as H. rewrite HR in H.
  destruct H as [_ [E2 [_ [E4 [b [B1 _]]]]]].
  rewrite parse_one_eq in HR. apply finish_one_ok in HR. revert HR. unfold crun. generalize (cfuel inp). intros k HR.
  destruct HR as [s [HM [-> [-> [-> [HE _]]]]]].
  destruct (run_leaves _ _ _ _ (adapted_CG _ _ _) _ _ _ _ HM) as [l [L1 L2]].
  cbn [match_start thunks] in L2. rewrite app_nil_r in L2. rewrite L2, rev_involutive in HE.
  assert (HC : commandless (PRule (start_rule fl)) = true) by (unfold start_rule; rewrite Hfl; reflexivity).
  destruct (exec_commandless _ _ _ _ (emits_commandless _ _ L1 HC) HE) as (ns & N1 & N2).
  apply steps_all in N1. unfold held in N1. rewrite E2, E4, B1 in N1. cbn in N1. rewrite !app_nil_r in N1.
  unfold round_segment. rewrite B1.
  destruct (make_segment_fields o (mkrange (y_off y) en) (a_errs a) (b_kids b) (a_result a) (a_eof a)) as [_ [_ [-> _]]].
  apply forest_numbered; [intros t; rewrite erase_ty; tauto|].
  rewrite Forall_forall in *. intros n Hn. apply (Permutation_in _ N1) in Hn. apply in_rev in Hn. auto.
Qed.

Lemma parse_each_commandless : forall cf la cb fl inp ret segs last seg n, pf_only_statements fl = true ->
  parse_each cf la cb fl inp = PRet ret segs last -> In seg segs -> In n (forest (s_roots seg)) -> nty n <> T_COMMAND.
Proof.
  intros cf la cb fl inp ret segs last seg n Hfl H Hs Hn. apply parse_each_chain in H. destruct H as [c [H _]].
  apply chain_at in H. rewrite Forall_forall in H. destruct (H seg Hs) as (d & o & y & p & a & u & en & D1 & D2 & D3).
  apply produced_commandless in D2; [|exact Hfl]. rewrite Forall_forall in D2. auto.
Qed.
