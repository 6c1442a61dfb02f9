(** * What the rules of expressions take: operators after an operand *)
From Coq Require Import List Bool Arith Ascii String ZArith Lia Permutation.
From Verif Require Import Peg PegProofs PegThunks QuickModel QuickSpec QuickProofs CypherSyntax CypherGrammar OperModel ErrModel
  CypherMatch AstTypes AstModel CypherBuild CypherExec CypherParse CypherRun CypherRound CypherSpec
  NodeFacts NodeHeld FlowSound FlowRun SafeProofs TraceSpec TraceProofs LexSpec LexProofs TermSpec Forward ForwardExec ForwardLex
  ForwardStep ForwardAtom.
Import ListNotations.
Open Scope peg_scope.
Opaque parse_one cfuel.
Strategy expand [crun].

(** the repeated part of [_expression] and, inside, of a chain of comparisons *)
Definition suffix : cexp :=
  match g__expression with
  | PSeq _ (PSeq (PAlt (PSeq _ (PSeq _ (PSeq (PPlus e) _))) _) _) => e
  | e => e
  end.
Definition chain1 : cexp :=
  match suffix with PAlt _ (PAlt _ (PAlt (PSeq _ (PSeq (PPlus e) _)) _)) => e | e => e end.

Definition infix_ops : list (oper * bytes) :=
  [(OP_OR, B "OR "); (OP_XOR, B "XOR "); (OP_AND, B "AND "); (OP_EQUAL, B "= "); (OP_NEQUAL, B "<> ");
   (OP_PLUS, B "+ "); (OP_MINUS, B "- "); (OP_MULT, B "* "); (OP_DIV, B "/ "); (OP_MOD, B "% "); (OP_POW, B "^ ");
   (OP_REGEX, B "=~ "); (OP_IN, B "IN "); (OP_STARTS_WITH, B "STARTS WITH "); (OP_ENDS_WITH, B "ENDS WITH "); (OP_CONTAINS, B "CONTAINS ")].
Definition comparison_ops : list (oper * bytes) :=
  [(OP_LT, B "< "); (OP_GT, B "> "); (OP_LTE, B "<= "); (OP_GTE, B ">= ")].
Definition postfix_ops : list (oper * bytes) := [(OP_IS_NULL, B "IS NULL "); (OP_IS_NOT_NULL, B "IS NOT NULL ")].

Section Expr.
Variables (col : coloring) (off : position) (inp : bytes).
Notation runc := (run CG (get_of inp) (cprun col off)).
Notation vis := (visits col off inp).
Notation cst := (pst action cuser).
Notation performs := (performs inp).
Notation takes := (takes col off inp).
Notation refuses := (refuses col off inp).

(** ** Precedence checks *)
Lemma ob_chk_pass : forall rest_of HT w o ps, hd 0 ps <= oprec o ->
  ob col off inp rest_of HT (mko (PPred QPrecChk) w (mkt (Some o) ps) FPass).
Proof.
  intros rest_of HT w o ps H m s _ [S1 S2]. cbn [o_verdict o_exp o_st t_op t_prs] in *. destruct m as [|m]; [exact I|].
  cbn [Peg.run]. unfold run_pred. cbn [cprun]. rewrite S2, S1. apply Nat.leb_le in H. rewrite H. repeat split; auto. constructor.
Qed.
Lemma ob_chk_fail : forall rest_of HT w o ps, oprec o < hd 0 ps ->
  ob col off inp rest_of HT (mko (PPred QPrecChk) w (mkt (Some o) ps) FFail).
Proof.
  intros rest_of HT w o ps H m s _ [S1 S2]. cbn [o_verdict o_exp o_st t_op t_prs] in *. destruct m as [|m]; [exact I|].
  cbn [Peg.run]. unfold run_pred. cbn [cprun]. rewrite S2, S1. apply Nat.leb_gt in H. rewrite H. exact S1.
Qed.

(** ** Repetition *)
Lemma plus_last : forall t x u R h, takes t x u R h -> refuses (mkt None (t_prs t)) x R -> takes t (PPlus x) u R h.
Proof.
  intros t x u R h HT HR m s HH HS. destruct m as [|m]; [exact I|]. cbn [Peg.run visits].
  specialize (HT m s HH HS). destruct (runc m x s) as [s1|s1| |]; auto.
  destruct HT as (T1 & T2 & T3 & T4). destruct m as [|m]; [exact I|]. cbn [Peg.run visits].
  specialize (HR m s1 T1). specialize (HR ltac:(split; [exact T2|exact I])). destruct (runc m x s1) as [s2|s2| |]; auto; [contradiction|].
  split; [exact T1|]. split; [exact HR|]. split; [exact T3|]. apply plain_app; [exact T4|constructor].
Qed.
Lemma plus_more : forall t x u1 u2 R h1 h2 h, takes t x u1 (u2 ++ R) h1 -> takes (mkt None (t_prs t)) (PPlus x) u2 R h2 ->
  (forall l1 l2, performs h1 l1 -> performs h2 l2 -> performs h (l1 ++ l2)) -> takes t (PPlus x) (u1 ++ u2) R h.
Proof.
  intros t x u1 u2 R h1 h2 h H1 H2 HC m s HH HS. destruct m as [|m]; [exact I|]. cbn [Peg.run visits].
  rewrite <- app_assoc in HH. specialize (H1 m s HH HS). destruct (runc m x s) as [s1|s1| |]; auto.
  destruct H1 as (T1 & T2 & (l1 & L1 & P1) & T4).
  specialize (H2 m s1 T1 ltac:(split; [exact T2|exact I])). cbn [t_prs] in H2.
  assert (E : match runc m (PStar x) s1 with
              | ROk s' => runc m (PPlus x) s1 = ROk s' /\ vis m (PStar x) s1 = vis m (PPlus x) s1
              | RFail _ => False | _ => True end).
  { destruct m as [|m]; [exact I|]. cbn [Peg.run visits] in H2 |- *. destruct (runc m x s1) as [s2|s2| |]; auto; try contradiction.
    destruct (runc m (PStar x) s2) as [s3|s3| |]; auto. }
  destruct (runc m (PStar x) s1) as [s3|s3| |]; auto. destruct E as [E1 E2]. rewrite E1 in H2. destruct H2 as (U1 & U2 & (l2 & L2 & P2) & U4).
  split; [exact U1|]. split; [congruence|]. split.
  - exists (l1 ++ l2). split; [rewrite rev_app_distr, <- app_assoc, L2, L1; reflexivity|auto].
  - rewrite E2. apply plain_app; assumption.
Qed.

(** ** One operator and what it needs *)
Definition fact_step : cexp -> list tok -> verdict := tight (fun e w =>
  match e, w with
  | PRule R__prec_expression, (Ho 0 _) :: w' => FTake 0 w'
  | PRule R_symbolic_name, (Ho 0 _) :: w' => FTake 0 w'
  | PRule R_expression, (Ho 0 _) :: w' => FTake 0 w'
  | PRule R_expression, (Ho 1 _) :: w' => FTake 1 w'
  | PPred QPrecChk, _ => FPass
  | _, _ => FNone
  end).
Lemma step_infix : forall o x ps u R tm, In (o, x) infix_ops -> hd 0 ps <= oprec o -> u <> [] -> gapfree (u ++ R) ->
  gapfree R -> takes (mkt (Some o) ps) (PRule R__prec_expression) u R (HNode tm) ->
  takes (mkt None ps) suffix (x ++ u) R (HFold 5 (fun t0 => T T_BINARY_OPERATOR [TOper (Some o); TNode (Some t0); TNode (Some tm)])).
Proof.
  intros o x ps u R tm HI HP HN HU HG HT. destruct u as [|c0 u0]; [contradiction|]. open_gap R HG.
  repeat (destruct HI as [HI|HI]; [injection HI as <- <-|]); [..|contradiction HI].
  all: match goal with |- takes _ _ (?x ++ _) _ _ =>
    eapply (take_of col off inp (two u0 R') (one_eff (HNode tm)) fact_step 200 suffix (map Kn x ++ [Ho 0 c0; Ho 9 c]) (mkt None ps));
    [run_trun|reflexivity| |apply fold_ok; run_fold|text_; reflexivity|text_; reflexivity] end.
  all: obs_ ltac:(first [apply ob_chk_pass; exact HP | eapply ob_take; [cbn [one_eff]; text_; exact HT|text_; reflexivity]]).
Qed.

Lemma step_postfix : forall o x ps R, In (o, x) postfix_ops -> hd 0 ps <= oprec o -> gapfree R ->
  takes (mkt None ps) suffix x R (HFold 5 (fun t0 => T T_UNARY_OPERATOR [TOper (Some o); TNode (Some t0)])).
Proof.
  intros o x ps R HI HP HG. open_gap R HG.
  repeat (destruct HI as [HI|HI]; [injection HI as <- <-|]); [..|contradiction HI].
  all: match goal with |- takes _ _ ?x _ _ =>
    eapply (take_of col off inp (two [] R') (one_eff HNone) fact_step 200 suffix (map Kn x ++ [Ho 9 c]) (mkt None ps));
    [run_trun|reflexivity| |apply fold_ok; run_fold|text_; reflexivity|text_; reflexivity] end.
  all: obs_ ltac:(apply ob_chk_pass; exact HP).
Qed.

Lemma step_property : forall v ps R, ~ In "`"%char v -> hd 0 ps <= oprec OP_PROPERTY -> gapfree R ->
  takes (mkt None ps) suffix (B ". `" ++ v ++ B "` ") R
    (HFold 5 (fun t0 => T T_PROPERTY_OPERATOR [TNode (Some t0); TNode (Some (T T_PROP_NAME [TStr v]))])).
Proof.
  intros v ps R HN HP HG. open_gap R HG.
  eapply (take_of col off inp (two (v ++ ["`"%char]) R') (one_eff (HAppend v)) fact_step 200 suffix
    (map Kn (B ". ") ++ [Ho 0 "`"; Kn " "; Ho 9 c]%char) (mkt None ps));
    [run_trun|reflexivity| |apply fold_ok; run_fold|text_; reflexivity|text_; reflexivity].
  obs_ ltac:(first [apply ob_chk_pass; exact HP | eapply ob_take; [cbn [one_eff]; text_; apply take_backquoted; exact HN|text_; reflexivity]]).
Qed.

Lemma step_subscript : forall u ps R tm, hd 0 ps <= oprec OP_SUBSCRIPT -> u <> [] -> gapfree (u ++ B "] " ++ R) -> gapfree R ->
  (forall t, takes t (PRule R_expression) u (B "] " ++ R) (HNode tm)) ->
  takes (mkt None ps) suffix (B "[ " ++ u ++ B "] ") R (HFold 5 (fun t0 => T T_SUBSCRIPT_OPERATOR [TNode (Some t0); TNode (Some tm)])).
Proof.
  intros u ps R tm HP HN HU HG HT. destruct u as [|c0 u0]; [contradiction|]. open_gap R HG.
  eapply (take_of col off inp (two u0 R') (one_eff (HNode tm)) fact_step 200 suffix
    (Kn "[" :: Kn " " :: Ho 0 c0 :: Kn "]" :: Kn " " :: [Ho 9 c])%char (mkt None ps));
    [run_trun|reflexivity| |apply fold_ok; run_fold|text_; reflexivity|text_; reflexivity].
  obs_ ltac:(first [apply ob_chk_pass; exact HP | eapply ob_take; [cbn [one_eff]; text_; apply HT|text_; reflexivity]]).
Qed.

(** the ends of a slice can be missing *)
Definition pre_text (w : bytes) (x : option (bytes * term)) : bytes := match x with Some (u, _) => w ++ u | None => [] end.
Definition end_text : option (bytes * term) -> bytes := pre_text [].
Definition end_term (x : option (bytes * term)) : option term := match x with Some (_, tm) => Some tm | None => None end.
Definition end_ok (x : option (bytes * term)) (R : bytes) : Prop :=
  match x with
  | Some (u, tm) => u <> [] /\ gapfree (u ++ R) /\ (forall t, takes t (PRule R_expression) u R (HNode tm))
  | None => True
  end.
Lemma step_slice : forall x y ps R, hd 0 ps <= oprec OP_SUBSCRIPT -> gapfree R ->
  end_ok x (B ".. " ++ end_text y ++ B "] " ++ R) -> end_ok y (B "] " ++ R) ->
  takes (mkt None ps) suffix (B "[ " ++ end_text x ++ B ".. " ++ end_text y ++ B "] ") R
    (HFold 5 (fun t0 => T T_SLICE_OPERATOR [TNode (Some t0); TNode (end_term x); TNode (end_term y)])).
Proof.
  intros x y ps R HP HG HX HY. open_gap R HG.
  destruct x as [[u tm]|], y as [[u' tm']|]; cbn [end_ok end_text pre_text end_term app] in *.
  - destruct HX as (X1 & X2 & X3), HY as (Y1 & Y2 & Y3). destruct u as [|c0 u0]; [contradiction|]. destruct u' as [|c1 u1]; [contradiction|].
    eapply (take_of col off inp (three u0 u1 R') (two_eff (HNode tm) (HNode tm')) fact_step 200 suffix
      (Kn "[" :: Kn " " :: Ho 0 c0 :: Kn "." :: Kn "." :: Kn " " :: Ho 1 c1 :: Kn "]" :: Kn " " :: [Ho 9 c])%char (mkt None ps));
      [run_trun|reflexivity| |apply fold_ok; run_fold|text_; reflexivity|text_; reflexivity].
    obs_ ltac:(first [apply ob_chk_pass; exact HP | eapply ob_take; [cbn [two_eff]; text_; first [apply X3|apply Y3]|text_; reflexivity]]).
  - destruct HX as (X1 & X2 & X3). destruct u as [|c0 u0]; [contradiction|].
    eapply (take_of col off inp (three u0 [] R') (two_eff (HNode tm) HNone) fact_step 200 suffix
      (Kn "[" :: Kn " " :: Ho 0 c0 :: Kn "." :: Kn "." :: Kn " " :: Kn "]" :: Kn " " :: [Ho 9 c])%char (mkt None ps));
      [run_trun|reflexivity| |apply fold_ok; run_fold|text_; reflexivity|text_; reflexivity].
    obs_ ltac:(first [apply ob_chk_pass; exact HP | eapply ob_take; [cbn [two_eff]; text_; apply X3|text_; reflexivity]]).
  - destruct HY as (Y1 & Y2 & Y3). destruct u' as [|c1 u1]; [contradiction|].
    eapply (take_of col off inp (three [] u1 R') (two_eff HNone (HNode tm')) fact_step 200 suffix
      (Kn "[" :: Kn " " :: Kn "." :: Kn "." :: Kn " " :: Ho 1 c1 :: Kn "]" :: Kn " " :: [Ho 9 c])%char (mkt None ps));
      [run_trun|reflexivity| |apply fold_ok; run_fold|text_; reflexivity|text_; reflexivity].
    obs_ ltac:(first [apply ob_chk_pass; exact HP | eapply ob_take; [cbn [two_eff]; text_; apply Y3|text_; reflexivity]]).
  - eapply (take_of col off inp (three [] [] R') (two_eff HNone HNone) fact_step 200 suffix
      (Kn "[" :: Kn " " :: Kn "." :: Kn "." :: Kn " " :: Kn "]" :: Kn " " :: [Ho 9 c])%char (mkt None ps));
      [run_trun|reflexivity| |apply fold_ok; run_fold|text_; reflexivity|text_; reflexivity].
    obs_ ltac:(apply ob_chk_pass; exact HP).
Qed.

(** *** Comparisons *)
Lemma step_chain1 : forall o x ps u R tm, In (o, x) comparison_ops -> hd 0 ps <= oprec o -> u <> [] -> gapfree (u ++ R) ->
  gapfree R -> takes (mkt (Some o) ps) (PRule R__prec_expression) u R (HNode tm) ->
  takes (mkt None ps) chain1 (x ++ u) R (HChain 5 [o] [tm]).
Proof.
  intros o x ps u R tm HI HP HN HU HG HT. destruct u as [|c0 u0]; [contradiction|]. open_gap R HG.
  assert (HC : forall rest_of eff tr o tm,
    (forall sl tf (cf : list term -> list oper -> list oper * list oper) g t0 ops, exists h pv sb hp ret s1 s2 s3 s4 s5,
       texec eff sl tf cf tr (x_chain g t0 ops) = Some (mkx [[Some (Some 1); s1; s2; s3; s4; s5]] ret [] [S (S h)] [S (S h)] pv (o :: ops) sb None false hp) /\
       nth_error hp (S (S h)) = Some [tm]) ->
    forall l, traced inp rest_of (fun i => performs (eff i)) tr l -> performs (HChain 5 [o] [tm]) l).
  { intros rest_of eff tr o1 tm1 H. apply chain_performs. intros g t0 ops. apply H. }
  repeat (destruct HI as [HI|HI]; [injection HI as <- <-|]); [..|contradiction HI].
  all: match goal with |- takes _ _ (?x ++ _) _ _ =>
    eapply (take_of col off inp (two u0 R') (one_eff (HNode tm)) fact_step 60 chain1 (map Kn x ++ [Ho 0 c0; Ho 9 c]) (mkt None ps));
    [run_trun|reflexivity| |apply HC; clear|text_; reflexivity|text_; reflexivity] end.
  2,4,6,8: intros; lazymatch goal with |- exists h pv sb hp ret s1 s2 s3 s4 s5, ?x = _ /\ _ =>
    let v := eval vm_compute in x in
    lazymatch v with
    | Some (mkx [[_; ?s1; ?s2; ?s3; ?s4; ?s5]] ?ret _ [S (S ?h)] _ ?pv _ ?sb _ _ ?hp) =>
        exists h, pv, sb, hp, ret, s1, s2, s3, s4, s5; split; [vm_cast_no_check (eq_refl v)|reflexivity]
    end end.
  all: obs_ ltac:(first [apply ob_chk_pass; exact HP | eapply ob_take; [cbn [one_eff]; text_; exact HT|text_; reflexivity]]).
Qed.

Definition fact_chain : cexp -> list tok -> verdict := tight (fun e w =>
  match e, w with
  | PPlus _, _ => FTake 0 [last w (Kn " "%char)]
  | PPred QPrecChk, _ => FPass
  | _, _ => FNone
  end).
Lemma chain_real_eq : forall os ts t0 ops, List.length os = List.length ts ->
  chain_real (t0 :: ts) (rev os ++ ops) = (os, ops).
Proof.
  intros os ts t0 ops H. unfold chain_real. cbn [List.length]. replace (S (List.length ts) - 1) with (List.length ts) by lia.
  rewrite <- H, <- rev_length. rewrite firstn_app, Nat.sub_diag, firstn_all, skipn_app, Nat.sub_diag, skipn_all. cbn.
  rewrite app_nil_r, rev_involutive. reflexivity.
Qed.
Lemma step_chain : forall o x u R os ts ps, In (o, x) comparison_ops -> gapfree (u ++ R) -> gapfree R -> u <> [] -> List.length os = List.length ts ->
  takes (mkt None ps) (PPlus chain1) (x ++ u) R (HChain 5 os ts) ->
  takes (mkt None ps) suffix (x ++ u) R (HFold 5 (fun t0 => T T_COMPARISON [TOpers os; TList (t0 :: ts)])).
Proof.
  intros o x u R os ts ps HI HU HG HN HL HT. destruct u as [|c0 u0]; [contradiction|]. open_gap R HG.
  assert (HC : forall rest_of eff tr,
    (forall sl tf (fo fr : list term -> list oper -> list oper) g t0 ops, exists h pv sb hp ret st sl1,
     texec eff sl tf (fun ts ops => (fo ts ops, fr ts ops)) tr (x_fold 5 g t0 ops) =
       Some (mkx [Some (Some (S (S h))) :: sl1] ret [mkxb st [] [S (S h)]] [] [] pv (fr (t0 :: ts ++ []) (rev os ++ ops)) sb None false hp) /\
     nth_error hp (S (S h)) = Some [T T_COMPARISON [TOpers (fo (t0 :: ts ++ []) (rev os ++ ops)); TList (t0 :: ts ++ [])]] /\ List.length sl1 = 5) ->
    forall l, traced inp rest_of (fun i => performs (eff i)) tr l -> performs (HFold 5 (fun t0 => T T_COMPARISON [TOpers os; TList (t0 :: ts)])) l).
  { intros rest_of eff tr H. apply fold_performs. intros g t0 ops.
    destruct (H (slice_real inp rest_of) trim (fun ts ops => fst (chain_real ts ops)) (fun ts ops => snd (chain_real ts ops)) g t0 ops)
      as (h & pv & sb & hp & ret & st & sl1 & E1 & E2 & E3).
    exists h, pv, sb, hp, ret, st, sl1.
    rewrite app_nil_r in E1, E2. rewrite (chain_real_eq os ts t0 ops HL) in E1, E2. cbn [fst snd] in E1, E2. split; [exact E1|split; [exact E2|exact E3]]. }
  repeat (destruct HI as [HI|HI]; [injection HI as <- <-|]); [..|contradiction HI].
  all: match goal with |- takes _ _ (?x ++ _) _ _ =>
    eapply (take_of col off inp (three [] u0 R') (one_eff (HChain 5 os ts)) fact_chain 200 suffix (map Kn x ++ [Ho 1 c0; Ho 9 c]) (mkt None ps));
    [run_trun|reflexivity| |apply HC; clear|text_; reflexivity|text_; reflexivity] end.
  2,4,6,8: run_fold.
  all: obs_ ltac:(eapply ob_take; [cbn [one_eff]; text_; exact HT|text_; reflexivity]).
Qed.

(** ** Where the repetition ends *)
(** the end of an enclosing construct *)
Definition close_words : list bytes :=
  [B "AS "; B "WHERE "; B "WHEN "; B "THEN "; B "ELSE "; B "END ";
   B "ORDER "; B "SKIP "; B "LIMIT "; B "ASC "; B "DESC "; B "ASCENDING "; B "DESCENDING "; B "ON ";
   B "MATCH "; B "OPTIONAL "; B "RETURN "; B "UNWIND "; B "MERGE "; B "CREATE "; B "SET "; B "DELETE "; B "DETACH "; B "REMOVE ";
   B "WITH "; B "FOREACH "; B "CALL "; B "LOAD "; B "START "; B "UNION "; B "IS UNIQUE "; B "USING "].
Inductive closer : bytes -> Prop :=
| cl_char : forall c R, In c (B ")],;|}") -> closer (c :: R)
| cl_dots : forall R, closer (B ".." ++ R)
| cl_word : forall w R, In w close_words -> closer (w ++ R).
Definition after_ops : list (oper * bytes) := infix_ops ++ comparison_ops ++ postfix_ops.
(** nothing at level [n] or above goes on here *)
Definition stops (n : nat) (R : bytes) : Prop :=
  closer R \/ (exists o x R', In (o, x) after_ops /\ oprec o < n /\ R = x ++ R' /\ gapfree R').
Lemma stops_mono : forall n m R, n <= m -> stops n R -> stops m R.
Proof. intros n m R H [K|(o & x & R' & H1 & H2 & H3)]; [left; exact K|right]. exists o, x, R'. split; [exact H1|]. split; [lia|exact H3]. Qed.

(** all checks pass; all but those of labels fail *)
Definition fact_pass : cexp -> list tok -> verdict := tight (fun e w =>
  match e with PPred QPrecChk => FPass | _ => FNone end).
Definition fact_stop (k : nat) : cexp -> list tok -> verdict := tight (fun e w =>
  match e with PPred QPrecChk => if Nat.eqb (List.length w) k then FPass else FFail | _ => FNone end).
(** [<>] is not the start of a comparison with [<] *)
Definition fact_less : cexp -> list tok -> verdict := tight (fun e w =>
  match e with PPred QPrecChk => match List.length w with 1 => FFail | _ => FPass end | _ => FNone end).

Lemma refuse_suffix : forall n R ps, stops n R -> n = hd 0 ps -> n <= 12 -> refuses (mkt None ps) suffix R.
Proof.
  intros n R ps [H|(o & x & R' & HI & HO & -> & HG)] HN HL.
  - destruct H as [c R HC|R|w R HW].
    + cbn in HC. repeat (destruct HC as [<-|HC]); [..|contradiction HC].
      all: match goal with |- refuses _ _ (?c :: ?R) => replace (c :: R) with (text (two [] R) [Ho 9 c]) by (text_; reflexivity);
        eapply (refuse_of col off inp (two [] R) (one_eff HNone) fact_pass 200 suffix [Ho 9 c] (mkt None ps)); [run_fail|reflexivity|] end.
      all: obs_ ltac:(apply ob_chk_pass; cbn; lia).
    + replace (B ".." ++ R) with (text (two [] R) [Kn "."; Ho 9 "."]%char) by (text_; reflexivity).
      eapply (refuse_of col off inp (two [] R) (one_eff HNone) fact_pass 200 suffix [Kn "."; Ho 9 "."]%char (mkt None ps)); [run_fail|reflexivity|].
      obs_ ltac:(apply ob_chk_pass; cbn; lia).
    + replace (w ++ R) with (text (two [] R) (map Kn (removelast w) ++ [Ho 9 " "%char]))
        by (cbn [close_words In] in HW; repeat (destruct HW as [<-|HW]; [cbn; rewrite ?app_nil_r; reflexivity|]); contradiction).
      cbn [close_words In] in HW. repeat (destruct HW as [<-|HW]); [..|contradiction HW].
      all: (eapply (refuse_of col off inp (two [] R) (one_eff HNone) fact_pass 200 suffix); [run_fail|reflexivity|]).
      all: obs_ ltac:(apply ob_chk_pass; cbn; lia).
  - open_gap R' HG. unfold after_ops, infix_ops, comparison_ops, postfix_ops in HI. cbn [app] in HI.
    rewrite HN in HO, HL.
    repeat (destruct HI as [HI|HI]; [injection HI as <- <-|]); [..|contradiction HI].
    all: match goal with |- refuses _ _ (?x ++ ?c :: ?R) => 
      replace (x ++ c :: R) with (text (two [] R) (map Kn x ++ [Ho 9 c])) by (text_; reflexivity) end.
    5:{ destruct (Nat.eq_dec (hd 0 ps) 6) as [E6|E6].
        + eapply (refuse_of col off inp (two [] _) (one_eff HNone) fact_less 200 suffix _ (mkt None ps)); [run_fail|reflexivity|].
          obs_ ltac:(first [apply ob_chk_pass; cbn; lia|apply ob_chk_fail; exact HO]).
        + eapply (refuse_of col off inp (two [] _) (one_eff HNone) (fact_stop 4) 200 suffix _ (mkt None ps)); [run_fail|reflexivity|].
          obs_ ltac:(first [apply ob_chk_pass; cbn; lia|apply ob_chk_fail; cbn in HO |- *; lia]). }
    all: match goal with |- refuses _ _ (text _ ?w) => let k := eval vm_compute in (List.length w) in
      eapply (refuse_of col off inp _ (one_eff HNone) (fact_stop k) 200 suffix _ (mkt None ps)); [run_fail|reflexivity|] end.
    all: obs_ ltac:(first [apply ob_chk_pass; cbn; lia|apply ob_chk_fail; exact HO]).
Qed.

(** ** [_expression] and what is built on it *)
Lemma takes_weaken : forall t x u R h, takes (mkt None (t_prs t)) x u R h -> takes t x u R h.
Proof. intros t x u R h H m s HH HS. apply (H m s HH). apply same_forget. exact HS. Qed.
Lemma refuses_weaken : forall t x u, refuses (mkt None (t_prs t)) x u -> refuses t x u.
Proof. intros t x u H m s HH HS. apply (H m s HH). apply same_forget. exact HS. Qed.

Definition fact_expr : cexp -> list tok -> verdict := fun e w =>
  match e, w with
  | PRule R__atom, (Ho 0 _) :: w' => FTake 0 w'
  | PRule R__expression, (Ho 0 _) :: w' => FTake 0 w'
  | PPlus _, [_] => FFail
  | PPlus _, [_; z] => FTake 1 [z]
  | _, _ => FNone
  end.
Definition fact_rule : cexp -> list tok -> verdict := fun e w =>
  match e, w with
  | PRule R__expression, (Ho 0 _) :: w' => FTake 0 w'
  | _, _ => FNone
  end.
Lemma refuse_plus : forall t x R, refuses t x R -> refuses t (PPlus x) R.
Proof.
  intros t x R H m s HH HS. destruct m as [|m]; [exact I|]. cbn [Peg.run]. specialize (H m s HH HS).
  destruct (runc m x s) as [s1|s1| |]; auto. contradiction.
Qed.
Lemma expr_plain : forall ps u R tm, u <> [] -> R <> [] -> takes (mkt None ps) (PRule R__atom) u R (HNode tm) ->
  refuses (mkt None ps) suffix R -> takes (mkt None ps) (PRule R__expression) u R (HNode tm).
Proof.
  intros ps u R tm HU HR HT HF. destruct u as [|c0 u0]; [contradiction|]. destruct R as [|c R']; [contradiction|].
  eapply (take_of col off inp (two u0 R') (one_eff (HNode tm)) (fun e w => match e, w with PRule R__expression, _ => FNone | _, _ => fact_expr e w end)
    60 (PRule R__expression) [Ho 0 c0; Ho 9 c] (mkt None ps));
    [run_trun|reflexivity| |apply node_ok; run_node|text_; reflexivity|text_; reflexivity].
  obs_ ltac:(first [eapply ob_take; [cbn [one_eff]; text_; exact HT|text_; reflexivity]
    |apply ob_refuse; text_; exact (refuse_plus _ _ _ HF)]).
Qed.
Lemma expr_suffixed : forall ps u v R tm f, u <> [] -> v <> [] -> R <> [] -> takes (mkt None ps) (PRule R__atom) u (v ++ R) (HNode tm) ->
  takes (mkt None ps) (PPlus suffix) v R (HFold 5 f) -> takes (mkt None ps) (PRule R__expression) (u ++ v) R (HNode (f tm)).
Proof.
  intros ps u v R tm f HU HV HR HT HF. destruct u as [|c0 u0]; [contradiction|]. destruct R as [|c R']; [contradiction|]. destruct v as [|c1 v1]; [contradiction|].
  eapply (take_of col off inp (three u0 v1 R') (two_eff (HNode tm) (HFold 5 f)) (fun e w => match e, w with PRule R__expression, _ => FNone | _, _ => fact_expr e w end)
    60 (PRule R__expression) [Ho 0 c0; Ho 1 c1; Ho 9 c] (mkt None ps));
    [run_trun|reflexivity| |apply node_ok; run_node|text_; reflexivity|text_; reflexivity].
  obs_ ltac:(first [eapply ob_take; [cbn [two_eff]; text_; first [exact HT|exact HF]|text_; reflexivity]]).
Qed.
Lemma expr_top : forall ps u R tm, u <> [] -> R <> [] -> takes (mkt None (0 :: ps)) (PRule R__expression) u R (HNode tm) ->
  takes (mkt None ps) (PRule R_expression) u R (HNode tm).
Proof.
  intros ps u R tm HU HR HT. destruct u as [|c0 u0]; [contradiction|]. destruct R as [|c R']; [contradiction|].
  eapply (take_of col off inp (two u0 R') (one_eff (HNode tm)) fact_rule 60 (PRule R_expression) [Ho 0 c0; Ho 9 c] (mkt None ps));
    [run_trun|reflexivity| |apply node_ok; run_node|text_; reflexivity|text_; reflexivity].
  obs_ ltac:(eapply ob_take; [cbn [one_eff]; text_; exact HT|text_; reflexivity]).
Qed.
Lemma expr_prec : forall o ps u R tm, u <> [] -> R <> [] -> takes (mkt None (next_prec o :: ps)) (PRule R__expression) u R (HNode tm) ->
  takes (mkt (Some o) ps) (PRule R__prec_expression) u R (HNode tm).
Proof.
  intros o ps u R tm HU HR HT. destruct u as [|c0 u0]; [contradiction|]. destruct R as [|c R']; [contradiction|].
  eapply (take_of col off inp (two u0 R') (one_eff (HNode tm)) fact_rule 60 (PRule R__prec_expression) [Ho 0 c0; Ho 9 c] (mkt (Some o) ps));
  [run_trun|reflexivity| |apply node_ok; run_node|text_; reflexivity|text_; reflexivity].
  obs_ ltac:(eapply ob_take; [cbn [one_eff]; text_; apply takes_weaken; exact HT|text_; reflexivity]).
Qed.
End Expr.
