(** * What the rules of expressions take: the atoms *)
From Coq Require Import List Bool Arith Ascii String ZArith Lia Permutation.
From Verif Require Import Peg PegProofs PegThunks QuickModel QuickSpec QuickProofs CypherSyntax CypherGrammar OperModel ErrModel
  CypherMatch AstTypes AstModel CypherBuild CypherExec CypherParse CypherRun CypherRound CypherSpec
  NodeFacts NodeHeld FlowSound FlowRun SafeProofs TraceSpec TraceProofs LexSpec LexProofs TermSpec Forward ForwardExec ForwardLex ForwardStep.
Import ListNotations.
Open Scope peg_scope.
Opaque parse_one cfuel.
Strategy expand [crun].

(** not the start of white space or of a comment *)
Definition gapfree (R : bytes) : Prop :=
  (exists c R', R = c :: R' /\ ~ In c [" "; "009"; "010"; "013"; "/"]%char) \/ (exists R', R = "/"%char :: " "%char :: R').

Definition sp1 : cexp := PStar ((PRule R_WS : cexp) ∥ PRule R_comment).
Definition is_sp (e : cexp) : bool :=
  match e with PStar (PAlt (PRule R_WS) (PRule R_comment)) => true | _ => false end.
(** no white space in front of a hole *)
Definition tight (f : cexp -> list tok -> verdict) (e : cexp) (w : list tok) : verdict :=
  if is_sp e then match w with Ho _ _ :: _ => FPass | _ => FNone end else f e w.
Definition nofact : cexp -> list tok -> verdict := fun _ _ => FNone.

Section Atom.
Variables (col : coloring) (off : position) (inp : bytes).
Notation runc := (run CG (get_of inp) (cprun col off)).
Notation cst := (pst action cuser).
Notation performs := (performs inp).
Notation takes := (takes col off inp).
Notation refuses := (refuses col off inp).

Lemma beq_neq : forall a b : ascii, a <> b -> beq a b = false.
Proof. intros a b H. unfold beq. apply Ascii.eqb_neq. exact H. Qed.

Lemma ob_sp : forall rest_of HT w t, gapfree (text rest_of w) -> ob col off inp rest_of HT (mko sp1 w t FPass).
Proof.
  intros rest_of HT w t H m s HA HS. cbn [o_verdict o_exp o_st o_at] in *.
  assert (K : exists w', text rest_of w = text (fun _ => tl (text rest_of w)) w' /\
    trun nofact 9 sp1 w' t = TOk w' t [] true []).
  { destruct H as [(c & R & E & N)|(R & E)].
    - exists [Ho 0 c]. split; [rewrite E; cbn; rewrite app_nil_r; reflexivity|].
      assert (N1 : c <> " "%char) by (intros ->; apply N; cbn; auto).
      assert (N2 : c <> "009"%char) by (intros ->; apply N; cbn; auto).
      assert (N3 : c <> "010"%char) by (intros ->; apply N; cbn; auto).
      assert (N4 : c <> "013"%char) by (intros ->; apply N; cbn; auto).
      assert (N5 : c <> "/"%char) by (intros ->; apply N; cbn; auto 6).
      cbn -[beq]. rewrite (beq_neq c " "), (beq_neq c "009"), (beq_neq "010" c), (beq_neq "013" c), (beq_neq "/" c) by congruence.
      reflexivity.
    - exists (Kn "/"%char :: Kn " "%char :: map Kn R). split; [|vm_compute; reflexivity].
      rewrite E. cbn. f_equal. f_equal. clear. generalize (fun _ : nat => " "%char :: R). intros r. induction R as [|c R IH]; cbn; [reflexivity|]. f_equal. exact IH. }
  destruct K as (w' & E & K).
  pose proof (trun_sound col off inp (fun _ => tl (text rest_of w)) (fun _ _ => True) nofact m 9 sp1 w' t s) as G.
  rewrite K in G. unfold good in G. cbn [obs_of] in G.
  assert (A : at_toks inp (fun _ => tl (text rest_of w)) (pos s) w') by (unfold at_toks; rewrite <- E; exact HA).
  specialize (G A HS ltac:(constructor)). destruct (runc m sp1 s) as [s'|s'| |]; auto.
  destruct G as (G1 & G2 & (l & G3 & G4) & G5). inversion G4; subst.
  split; [rewrite (at_where _ _ _ _ G1), (at_where _ _ _ _ A); reflexivity|]. auto.
Qed.

(** [node_performs] and [fold_performs] where nothing is computed from the input or from the operators *)
Lemma node_ok : forall rest_of eff tr tm,
  (forall sl tf (cf : list term -> list oper -> list oper * list oper) g ops, exists h pv sb hp,
     texec eff sl tf cf tr (x_node g ops) = Some (mkx [] (Some (Some (S h))) [] [] [S h] pv ops sb None false hp) /\
     nth_error hp (S h) = Some [tm]) ->
  forall l, traced inp rest_of (fun i => performs (eff i)) tr l -> performs (HNode tm) l.
Proof. intros rest_of eff tr tm H. apply node_performs. intros g ops. apply H. Qed.
Lemma fold_ok : forall rest_of eff tr k f,
  (forall sl tf (cf : list term -> list oper -> list oper * list oper) g t0 ops, exists h pv sb hp ret st sl1,
     texec eff sl tf cf tr (x_fold k g t0 ops) = Some (mkx [Some (Some (S (S h))) :: sl1] ret [mkxb st [] [S (S h)]] [] [] pv ops sb None false hp) /\
     nth_error hp (S (S h)) = Some [f t0] /\ List.length sl1 = k) ->
  forall l, traced inp rest_of (fun i => performs (eff i)) tr l -> performs (HFold k f) l.
Proof. intros rest_of eff tr k f H. apply fold_performs. intros g t0 ops. apply H. Qed.
End Atom.

(** ** Tactics *)
Ltac run_trun :=
  lazymatch goal with |- ?x = ?y =>
    let v := eval vm_compute in x in
    lazymatch v with
    | TOk _ _ _ _ _ => unify y v; vm_cast_no_check (eq_refl v)
    | _ => fail "prediction" v
    end
  end.
Ltac run_fail :=
  lazymatch goal with |- ?x = ?y =>
    let v := eval vm_compute in x in
    lazymatch v with
    | TFail _ _ => unify y v; vm_cast_no_check (eq_refl v)
    | _ => fail "prediction" v
    end
  end.
Ltac run_node :=
  intros;
  lazymatch goal with |- exists h pv sb hp, ?x = _ /\ _ =>
    let v := eval vm_compute in x in
    lazymatch v with
    | Some (mkx _ (Some (Some (S ?h))) _ _ _ ?pv _ ?sb _ _ ?hp) =>
        exists h, pv, sb, hp; split; [vm_cast_no_check (eq_refl v)|reflexivity]
    | _ => fail "execution" v
    end
  end.
Ltac run_fold :=
  intros;
  lazymatch goal with |- exists h pv sb hp ret st sl1, ?x = _ /\ _ =>
    let v := eval vm_compute in x in
    lazymatch v with
    | Some (mkx [Some (Some (S (S ?h))) :: ?sl1] ?ret [mkxb ?st _ _] _ _ ?pv _ ?sb _ _ ?hp) =>
        exists h, pv, sb, hp, ret, st, sl1; split; [vm_cast_no_check (eq_refl v)|split; reflexivity]
    | _ => fail "execution" v
    end
  end.

Definition two (r0 r9 : bytes) (i : nat) : bytes := match i with 0 => r0 | _ => r9 end.
Definition one_eff (h : heff) (i : nat) : heff := match i with 0 => h | _ => HNone end.

Definition three (r0 r1 r9 : bytes) (i : nat) : bytes := match i with 0 => r0 | 1 => r1 | _ => r9 end.
Definition two_eff (h0 h1 : heff) (i : nat) : heff := match i with 0 => h0 | 1 => h1 | _ => HNone end.
(** any number of holes *)
Definition many (l : list bytes) (r9 : bytes) (i : nat) : bytes := nth i l r9.
Definition effs (l : list heff) (i : nat) : heff := nth i l HNone.
Ltac text_ := unfold text; cbn [map flat_map text1 two three many nth app B list_ascii_of_string]; rewrite ?app_nil_r; repeat progress (rewrite <- ?app_assoc; cbn [app]).
(** [tac] discharges what is not about white space *)
Ltac gap_ := text_; first [assumption | left; eexists; eexists; split; [reflexivity|cbn [In]; intuition discriminate]].
Ltac obs_ tac :=
  repeat (apply Forall_cons; [first [apply ob_sp; gap_ | tac]|]); apply Forall_nil.
Ltac open_gap R HG := let c := fresh "c" in let R' := fresh "R'" in let E := fresh in
  assert (E : exists c R', R = c :: R') by (destruct HG as [(c & R' & -> & _)|(R' & ->)]; eauto); destruct E as (c & R' & ->).

Section Atoms.
Variables (col : coloring) (off : position) (inp : bytes).
Notation runc := (run CG (get_of inp) (cprun col off)).
Notation cst := (pst action cuser).
Notation performs := (performs inp).
Notation takes := (takes col off inp).
Notation refuses := (refuses col off inp).

Definition fact_quoted : cexp -> list tok -> verdict := tight (fun e w =>
  match e, w with
  | PRule R_quoted, (Ho 0 _) :: w' => FTake 0 w'
  | _, _ => FNone
  end).
Lemma take_string : forall t u v R, quoted_text u v -> gapfree R ->
  takes t (PRule R__atom) (u ++ B " ") R (HNode (T T_STRING [TStr v])).
Proof.
  intros t u v R HQ HG. pose proof HQ as (q & body & Q1 & -> & _). open_gap R HG.
  destruct Q1 as [-> | ->].
  - eapply (take_of col off inp (two (body ++ ["'"%char]) R') (one_eff (HAppend v)) fact_quoted 60 (PRule R__atom) [Ho 0 "'"%char; Kn " "%char; Ho 9 c] t);
    [run_trun|reflexivity| |apply node_ok; run_node|text_; reflexivity|text_; reflexivity].
    obs_ ltac:(eapply ob_take; [cbn [one_eff]; text_; apply take_quoted; exact HQ|text_; reflexivity]).
  - eapply (take_of col off inp (two (body ++ [""""%char]) R') (one_eff (HAppend v)) fact_quoted 60 (PRule R__atom) [Ho 0 """"%char; Kn " "%char; Ho 9 c] t);
    [run_trun|reflexivity| |apply node_ok; run_node|text_; reflexivity|text_; reflexivity].
    obs_ ltac:(eapply ob_take; [cbn [one_eff]; text_; apply take_quoted; exact HQ|text_; reflexivity]).
Qed.

Definition fact_name : cexp -> list tok -> verdict := tight (fun e w =>
  match e, w with
  | PRule R_symbolic_name, (Ho 0 _) :: w' => FTake 0 w'
  | _, _ => FNone
  end).
Lemma take_param : forall t v R, ~ In "`"%char v -> gapfree R ->
  takes t (PRule R__atom) (B "$`" ++ v ++ B "` ") R (HNode (T T_PARAMETER [TStr v])).
Proof.
  intros t v R HN HG. open_gap R HG.
  eapply (take_of col off inp (two (v ++ ["`"%char]) R') (one_eff (HAppend v)) fact_name 60 (PRule R__atom) [Kn "$"%char; Ho 0 "`"%char; Kn " "%char; Ho 9 c] t);
    [run_trun|reflexivity| |apply node_ok; run_node|text_; reflexivity|text_; reflexivity].
  obs_ ltac:(eapply ob_take; [cbn [one_eff]; text_; apply take_backquoted; exact HN|text_; reflexivity]).
Qed.
Lemma take_word : forall t r ty w R, In (r, ty, w) [(R_true_literal, T_TRUE, B "true "); (R_false_literal, T_FALSE, B "false "); (R_null_literal, T_NULL, B "null ")] ->
  gapfree R -> takes t (PRule R__atom) w R (HNode (T ty [])).
Proof.
  intros t r ty w R HI HG. open_gap R HG. cbn [In] in HI.
  destruct HI as [HI|[HI|[HI|[]]]]; injection HI as <- <- <-.
  - eapply (take_of col off inp (two [] R') (one_eff HNone) (tight nofact) 60 (PRule R__atom) (map Kn (B "true ") ++ [Ho 9 c]) t);
      [run_trun|reflexivity| |apply node_ok; run_node|text_; reflexivity|text_; reflexivity]. obs_ fail.
  - eapply (take_of col off inp (two [] R') (one_eff HNone) (tight nofact) 60 (PRule R__atom) (map Kn (B "false ") ++ [Ho 9 c]) t);
      [run_trun|reflexivity| |apply node_ok; run_node|text_; reflexivity|text_; reflexivity]. obs_ fail.
  - eapply (take_of col off inp (two [] R') (one_eff HNone) (tight nofact) 60 (PRule R__atom) (map Kn (B "null ") ++ [Ho 9 c]) t);
      [run_trun|reflexivity| |apply node_ok; run_node|text_; reflexivity|text_; reflexivity]. obs_ fail.
Qed.

(** *** Prefix operators and parentheses *)
Definition fact_prec : cexp -> list tok -> verdict := tight (fun e w =>
  match e, w with
  | PRule R__prec_expression, (Ho 0 _) :: w' => FTake 0 w'
  | _, _ => FNone
  end).
Definition prefix_text (o : oper) : bytes :=
  match o with OP_NOT => B "NOT " | OP_UNARY_PLUS => B "+ " | _ => B "- " end.
Definition is_prefix (o : oper) : bool := match o with OP_NOT | OP_UNARY_PLUS | OP_UNARY_MINUS => true | _ => false end.
Lemma take_prefix : forall t o u R tm, is_prefix o = true -> gapfree (u ++ R) ->
  takes (mkt (Some o) (t_prs t)) (PRule R__prec_expression) u R (HNode tm) -> u <> [] -> gapfree R ->
  takes t (PRule R__atom) (prefix_text o ++ u) R (HNode (T T_UNARY_OPERATOR [TOper (Some o); TNode (Some tm)])).
Proof.
  intros t o u R tm HO HU HT HN HG. destruct u as [|c0 u0]; [contradiction|]. open_gap R HG.
  destruct o; try discriminate HO; cbn [prefix_text].
  - eapply (take_of col off inp (two u0 R') (one_eff (HNode tm)) fact_prec 60 (PRule R__atom) (map Kn (B "NOT ") ++ [Ho 0 c0; Ho 9 c]) t);
      [run_trun|reflexivity| |apply node_ok; run_node|text_; reflexivity|text_; reflexivity].
    obs_ ltac:(eapply ob_take; [cbn [one_eff]; text_; exact HT|text_; reflexivity]).
  - eapply (take_of col off inp (two u0 R') (one_eff (HNode tm)) fact_prec 60 (PRule R__atom) (map Kn (B "+ ") ++ [Ho 0 c0; Ho 9 c]) t);
      [run_trun|reflexivity| |apply node_ok; run_node|text_; reflexivity|text_; reflexivity].
    obs_ ltac:(eapply ob_take; [cbn [one_eff]; text_; exact HT|text_; reflexivity]).
  - eapply (take_of col off inp (two u0 R') (one_eff (HNode tm)) fact_prec 60 (PRule R__atom) (map Kn (B "- ") ++ [Ho 0 c0; Ho 9 c]) t);
      [run_trun|reflexivity| |apply node_ok; run_node|text_; reflexivity|text_; reflexivity].
    obs_ ltac:(eapply ob_take; [cbn [one_eff]; text_; exact HT|text_; reflexivity]).
Qed.

Definition fact_paren : cexp -> list tok -> verdict := tight (fun e w =>
  match e, w with
  | PRule R_expression, (Ho 0 _) :: w' => FTake 0 w'
  | PRule R_pattern_expression, Kn _ :: Kn _ :: Ho 0 _ :: _ => FFail
  | _, _ => FNone
  end).
Lemma take_paren : forall t u R tm, (forall t', takes t' (PRule R_expression) u (B ") " ++ R) (HNode tm)) -> u <> [] ->
  gapfree (u ++ B ") " ++ R) -> gapfree R -> (forall t', refuses t' (PRule R_pattern_expression) (B "( " ++ u ++ B ") " ++ R)) ->
  takes t (PRule R__atom) (B "( " ++ u ++ B ") ") R (HNode tm).
Proof.
  intros t u R tm HT HN HU HG HR. destruct u as [|c0 u0]; [contradiction|]. open_gap R HG.
  eapply (take_of col off inp (two u0 R') (one_eff (HNode tm)) fact_paren 60 (PRule R__atom)
    (Kn "(" :: Kn " " :: Ho 0 c0 :: Kn ")" :: Kn " " :: [Ho 9 c])%char t);
    [run_trun|reflexivity| |apply node_ok; run_node|text_; reflexivity|text_; reflexivity].
  obs_ ltac:(first [eapply ob_take; [cbn [one_eff]; text_; apply HT|text_; reflexivity]
                   |eapply ob_refuse; text_; apply HR]).
Qed.
End Atoms.
