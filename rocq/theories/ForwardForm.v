(** * What the rules of expressions take: lists, maps, calls, CASE and what goes over a list *)
From Coq Require Import List Bool Arith Ascii String ZArith Lia Permutation.
From Verif Require Import Peg PegProofs PegThunks QuickModel QuickSpec QuickProofs CypherSyntax CypherGrammar OperModel ErrModel
  CypherMatch AstTypes AstModel CypherBuild CypherExec CypherParse CypherRun CypherRound CypherSpec
  NodeFacts NodeHeld FlowSound FlowRun SafeProofs TraceSpec TraceProofs LexSpec LexProofs TermSpec Forward ForwardExec ForwardLex
  ForwardStep ForwardAtom ForwardExpr ForwardName ForwardPat ExprSpec.
Import ListNotations.
Open Scope peg_scope.
Opaque parse_one cfuel.
Strategy expand [crun].

(** the repeated parts *)
Definition comma_item (k : nat) : cexp :=
  PRule R_COMMA ⋅ PRule R_sp ⋅ bind k R_expression ⋅ PAct (TDo [SSeqAdd (AVar k)]).
Definition entry_item : cexp :=
  PRule R_COMMA ⋅ PRule R_sp ⋅ bind 0 R_prop_name ⋅ PAct (TDo [SSeqAdd (AVar 0)]) ⋅ PRule R_COLON ⋅ PRule R_sp ⋅
  bind 1 R_expression ⋅ PAct (TDo [SSeqAdd (AVar 1)]).
Definition alternative : cexp := PRule R_case_alternative.

(** Hole 0: a name; 1 to 4: expressions; 5: what is repeated. *)
Definition fact_form : cexp -> list tok -> verdict := tight (fun e w =>
  match e, w with
  | PStar _, (Ho 5 _) :: w' => FTake 5 w'
  | PPlus _, (Ho 5 _) :: w' => FTake 5 w'
  | PPlus (PRule R_case_alternative), (Ho _ _) :: _ => FFail
  | PRule R_symbolic_name, (Ho i _) :: w' => FTake i w'
  | PRule R_expression, (Ho i _) :: w' => FTake i w'
  | PRule R_DISTINCT, (Ho _ _) :: _ => FFail
  | PRule R_STAR, (Ho _ _) :: _ => FFail
  | PRule R_list_comprehension, Kn _ :: Kn _ :: Ho 1 _ :: _ => FFail
  | PRule R_pattern_comprehension, Kn _ :: Kn _ :: Ho 1 _ :: _ => FFail
  | _, _ => FNone
  end).

Ltac run_seq :=
  intros;
  lazymatch goal with |- exists pv sb hp ret v sl hs, ?x = _ /\ _ =>
    let r := eval vm_compute in x in
    lazymatch r with
    | Some (mkx [?v :: ?sl] ?ret _ ?hs _ ?pv _ ?sb _ _ ?hp) =>
        let hs' := eval vm_compute in (map (fun h => Nat.pred (Nat.pred h)) hs) in
        exists pv, sb, hp, ret, v, sl, hs'; split; [vm_cast_no_check (eq_refl r)|];
        split; [reflexivity|]; split; [first [reflexivity|discriminate]|]; split; [first [reflexivity|discriminate]|];
        split; [repeat constructor; cbn [In]; intuition discriminate|repeat constructor]
    | _ => fail "execution" r
    end
  end.

Section Form.
Variables (col : coloring) (off : position) (inp : bytes).
Notation runc := (run CG (get_of inp) (cprun col off)).
Notation vis := (visits col off inp).
Notation cst := (pst action cuser).
Notation performs := (performs inp).
Notation takes := (takes col off inp).
Notation refuses := (refuses col off inp).
Notation end_ok := (end_ok col off inp).

Lemma seq_ok : forall rest_of eff tr f k ts,
  (forall sl tf (cf : list term -> list oper -> list oper * list oper) g t0 ops, exists pv sb hp ret v slots hs,
     texec eff sl tf cf tr (x_seq f k g t0 ops) =
       Some (mkx [v :: slots] ret [] (map (fun h => S (S h)) hs) (map (fun h => S (S h)) hs) pv ops sb None false hp) /\
     List.length slots = k /\ (f = SNode -> v = Some (Some 1)) /\ (f = SNull -> v = Some None) /\ NoDup hs /\
     Forall2 (fun h t => nth_error hp (S (S h)) = Some [t]) hs ts) ->
  forall l, traced inp rest_of (fun i => performs (eff i)) tr l -> performs (HSeq f k ts) l.
Proof. intros rest_of eff tr f k ts H. apply seq_performs. intros g t0 ops. apply H. Qed.

Lemma star_of_plus : forall t x u R h, takes t (PPlus x) u R h -> takes t (PStar x) u R h.
Proof.
  intros t x u R h H m s HH HS. specialize (H m s HH HS). destruct m as [|m]; [exact I|]. cbn [Peg.run visits] in H |- *.
  destruct (runc m x s) as [s1|s1| |]; auto. contradiction.
Qed.
Lemma seq_one : forall f k t x u R ts, takes t x u R (HSeq f k ts) -> refuses (mkt None (t_prs t)) x R -> takes t (PPlus x) u R (HSeq f k ts).
Proof. intros f k t x u R ts. apply plus_last. Qed.
Lemma seq_more : forall f k t x u1 u2 R t1 t2, takes t x u1 (u2 ++ R) (HSeq f k t1) -> takes (mkt None (t_prs t)) (PPlus x) u2 R (HSeq f k t2) ->
  takes t (PPlus x) (u1 ++ u2) R (HSeq f k (t1 ++ t2)).
Proof.
  intros f k t x u1 u2 R t1 t2 H1 H2. eapply plus_more; [exact H1|exact H2|]. intros l1 l2 P1 P2. exact (performs_seq_app _ _ _ _ _ _ _ P1 P2).
Qed.

(** ** What is repeated *)
Ltac name_ := apply take_backquoted; assumption.
Ltac holes_ tac := obs_ ltac:(first [eapply ob_take; [cbn [effs nth]; text_; first [name_|tac]|text_; reflexivity]|apply ob_refuse; text_; tac]).
Lemma step_comma : forall f k t u R tm, In (f, k) [(SNode, 1); (SLost, 0)] -> u <> [] -> gapfree (u ++ R) -> R <> [] ->
  (forall t', takes t' (PRule R_expression) u R (HNode tm)) -> takes t (comma_item k) (B ", " ++ u) R (HSeq f k [tm]).
Proof.
  intros f k t u R tm HI HU HG HR HT. destruct u as [|c1 u1]; [contradiction|]. destruct R as [|c R']; [contradiction|].
  destruct HI as [HI|[HI|[]]]; injection HI as <- <-.
  - eapply (take_of col off inp (many [[]; u1] R') (effs [HNone; HNode tm]) fact_form 60 _ (Kn "," :: Kn " " :: Ho 1 c1 :: [Ho 9 c])%char t);
      [run_trun|reflexivity| |apply seq_ok; run_seq|text_; reflexivity|text_; reflexivity].
    holes_ ltac:(apply HT).
  - eapply (take_of col off inp (many [[]; u1] R') (effs [HNone; HNode tm]) fact_form 60 _ (Kn "," :: Kn " " :: Ho 1 c1 :: [Ho 9 c])%char t);
      [run_trun|reflexivity| |apply seq_ok; run_seq|text_; reflexivity|text_; reflexivity].
    holes_ ltac:(apply HT).
Qed.
Lemma step_entry : forall t v u R tm, ~ In "`"%char v -> u <> [] -> gapfree (u ++ R) -> R <> [] ->
  (forall t', takes t' (PRule R_expression) u R (HNode tm)) ->
  takes t entry_item (B ", " ++ name_text v ++ B ": " ++ u) R (HSeq SLost 1 [T T_PROP_NAME [TStr v]; tm]).
Proof.
  intros t v u R tm HV HU HG HR HT. destruct u as [|c1 u1]; [contradiction|]. destruct R as [|c R']; [contradiction|].
  eapply (take_of col off inp (many [v ++ ["`"%char]; u1] R') (effs [HAppend v; HNode tm]) fact_form 60 _
    (Kn "," :: Kn " " :: Ho 0 "`" :: Kn " " :: Kn ":" :: Kn " " :: Ho 1 c1 :: [Ho 9 c])%char t);
    [run_trun|reflexivity| |apply seq_ok; run_seq|unfold name_text; text_; reflexivity|text_; reflexivity].
  holes_ ltac:(apply HT).
Qed.
Lemma step_alternative : forall f t u w R tc tr, In f [SNode; SNull] -> u <> [] -> w <> [] -> R <> [] ->
  gapfree (u ++ B "THEN " ++ w ++ R) -> gapfree (w ++ R) ->
  (forall t', takes t' (PRule R_expression) u (B "THEN " ++ w ++ R) (HNode tc)) ->
  (forall t', takes t' (PRule R_expression) w R (HNode tr)) ->
  takes t alternative (B "WHEN " ++ u ++ B "THEN " ++ w) R (HSeq f 1 [tc; tr]).
Proof.
  intros f t u w R tc tr HI HU HW HR HG1 HG2 H1 H2. destruct u as [|c1 u1]; [contradiction|]. destruct w as [|c2 w2]; [contradiction|].
  destruct R as [|c R']; [contradiction|].
  destruct HI as [<-|[<-|[]]].
  - eapply (take_of col off inp (many [[]; u1; w2] R') (effs [HNone; HNode tc; HNode tr]) fact_form 60 _
      (map Kn (B "WHEN ") ++ Ho 1 c1 :: map Kn (B "THEN ") ++ Ho 2 c2 :: [Ho 9 c]) t);
      [run_trun|reflexivity| |apply seq_ok; run_seq|text_; reflexivity|text_; reflexivity].
    holes_ ltac:(first [apply H1|apply H2]).
  - eapply (take_of col off inp (many [[]; u1; w2] R') (effs [HNone; HNode tc; HNode tr]) fact_form 60 _
      (map Kn (B "WHEN ") ++ Ho 1 c1 :: map Kn (B "THEN ") ++ Ho 2 c2 :: [Ho 9 c]) t);
      [run_trun|reflexivity| |apply seq_ok; run_seq|text_; reflexivity|text_; reflexivity].
    holes_ ltac:(first [apply H1|apply H2]).
Qed.
Lemma stop_comma : forall k t c R, In c (B ")]") -> refuses t (comma_item k) (c :: R).
Proof.
  intros k t c R HC. replace (c :: R) with (text (many [] R) [Ho 9 c]) by (text_; reflexivity).
  cbn in HC. destruct HC as [<-|[<-|[]]]; (eapply (refuse_of col off inp (many [] R) (effs []) fact_form 100); [run_fail|reflexivity|obs_ fail]).
Qed.
Lemma stop_entry : forall t R, refuses t entry_item ("}"%char :: R).
Proof.
  intros t R. replace ("}"%char :: R) with (text (many [] R) [Ho 9 "}"%char]) by (text_; reflexivity).
  eapply (refuse_of col off inp (many [] R) (effs []) fact_form 100); [run_fail|reflexivity|obs_ fail].
Qed.
Lemma stop_alternative : forall t R, refuses t alternative ("E"%char :: R).
Proof.
  intros t R. replace ("E"%char :: R) with (text (many [] R) [Ho 9 "E"%char]) by (text_; reflexivity).
  eapply (refuse_of col off inp (many [] R) (effs []) fact_form 100); [run_fail|reflexivity|obs_ fail].
Qed.

(** ** The forms *)
(** [us] is what is repeated, or nothing *)
Definition rep (x : cexp) (f : skind) (k : nat) (us : bytes) (ts : list term) (R : bytes) : Prop :=
  (us = [] /\ ts = []) \/ (exists us', us = ","%char :: us' /\ forall t, takes t (PPlus x) us R (HSeq f k ts)).
Ltac rep_ H us' H' := destruct H as [(-> & ->)|(us' & -> & H')].
Ltac close_ := first [run_trun|reflexivity|unfold name_text; text_; reflexivity].

Lemma take_list0 : forall t R, gapfree R -> takes t (PRule R__atom) (B "[ ] ") R (HNode (T T_COLLECTION [TList []])).
Proof.
  intros t R HG. open_gap R HG.
  eapply (take_of col off inp (many [] R') (effs []) fact_form 100 _ (map Kn (B "[ ] ") ++ [Ho 9 c]) t);
    [run_trun|reflexivity| |apply node_ok; run_node|text_; reflexivity|text_; reflexivity].
  holes_ fail.
Qed.
Lemma take_list : forall t u us R tm ts, u <> [] -> gapfree (u ++ us ++ B "] " ++ R) -> gapfree R ->
  (forall t', takes t' (PRule R_expression) u (us ++ B "] " ++ R) (HNode tm)) ->
  rep (comma_item 0) SLost 0 us ts (B "] " ++ R) ->
  (forall t' r, In r comp_rules -> refuses t' (PRule r) (B "[ " ++ u ++ us ++ B "] " ++ R)) ->
  takes t (PRule R__atom) (B "[ " ++ u ++ us ++ B "] ") R (HNode (T T_COLLECTION [TList (tm :: ts)])).
Proof.
  intros t u us R tm ts HU HG HR HT HP HC. destruct u as [|c1 u1]; [contradiction|]. open_gap R HR.
  assert (HC1 := fun t' => HC t' R_list_comprehension ltac:(cbn; auto)). assert (HC2 := fun t' => HC t' R_pattern_comprehension ltac:(cbn; auto)). clear HC.
  rep_ HP us' HL.
  - eapply (take_of col off inp (many [[]; u1] R') (effs [HNone; HNode tm]) fact_form 100 _
      (map Kn (B "[ ") ++ Ho 1 c1 :: map Kn (B "] ") ++ [Ho 9 c]) t);
      [run_trun|reflexivity| |apply node_ok; run_node|text_; reflexivity|text_; reflexivity].
    holes_ ltac:(first [apply HT|apply HC1|apply HC2]).
  - rewrite <- (app_nil_r ts).
    eapply (take_of col off inp (many [[]; u1; []; []; []; us'] R') (effs [HNone; HNode tm; HNone; HNone; HNone; HSeq SLost 0 ts]) fact_form 100 _
      (map Kn (B "[ ") ++ Ho 1 c1 :: Ho 5 ","%char :: map Kn (B "] ") ++ [Ho 9 c]) t);
      [run_trun|reflexivity| |apply node_ok; run_node|text_; reflexivity|text_; reflexivity].
    holes_ ltac:(first [apply HT|apply HC1|apply HC2|apply star_of_plus; apply HL]).
Qed.

Lemma take_map0 : forall t R, gapfree R -> takes t (PRule R__atom) (B "{ } ") R (HNode (T T_MAP [TList []])).
Proof.
  intros t R HG. open_gap R HG.
  eapply (take_of col off inp (many [] R') (effs []) fact_form 100 _ (map Kn (B "{ } ") ++ [Ho 9 c]) t);
    [run_trun|reflexivity| |apply node_ok; run_node|text_; reflexivity|text_; reflexivity].
  holes_ fail.
Qed.
Lemma take_map : forall t v u us R tm ts, ~ In "`"%char v -> u <> [] -> gapfree (u ++ us ++ B "} " ++ R) -> gapfree R ->
  (forall t', takes t' (PRule R_expression) u (us ++ B "} " ++ R) (HNode tm)) ->
  rep entry_item SLost 1 us ts (B "} " ++ R) ->
  takes t (PRule R__atom) (B "{ " ++ name_text v ++ B ": " ++ u ++ us ++ B "} ") R
    (HNode (T T_MAP [TList (T T_PROP_NAME [TStr v] :: tm :: ts)])).
Proof.
  intros t v u us R tm ts HV HU HG HR HT HP. destruct u as [|c1 u1]; [contradiction|]. open_gap R HR.
  rep_ HP us' HL.
  - eapply (take_of col off inp (many [v ++ ["`"%char]; u1] R') (effs [HAppend v; HNode tm]) fact_form 100 _
      (map Kn (B "{ ") ++ Ho 0 "`"%char :: map Kn (B " : ") ++ Ho 1 c1 :: map Kn (B "} ") ++ [Ho 9 c]) t);
      [run_trun|reflexivity| |apply node_ok; run_node|unfold name_text; text_; reflexivity|text_; reflexivity].
    holes_ ltac:(first [apply HT]).
  - rewrite <- (app_nil_r ts).
    eapply (take_of col off inp (many [v ++ ["`"%char]; u1; []; []; []; us'] R') (effs [HAppend v; HNode tm; HNone; HNone; HNone; HSeq SLost 1 ts]) fact_form 100 _
      (map Kn (B "{ ") ++ Ho 0 "`"%char :: map Kn (B " : ") ++ Ho 1 c1 :: Ho 5 ","%char :: map Kn (B "} ") ++ [Ho 9 c]) t);
      [run_trun|reflexivity| |apply node_ok; run_node|unfold name_text; text_; reflexivity|text_; reflexivity].
    holes_ ltac:(first [apply HT|apply star_of_plus; apply HL]).
Qed.

Lemma take_over : forall t q x u y R tm, ~ In "`"%char x -> u <> [] -> gapfree (u ++ pre_text (over_sep q) y ++ B ") " ++ R) -> gapfree R ->
  (forall t', takes t' (PRule R_expression) u (pre_text (over_sep q) y ++ B ") " ++ R) (HNode tm)) -> end_ok y (B ") " ++ R) ->
  takes t (PRule R__atom) (over_word q ++ name_text x ++ B "IN " ++ u ++ pre_text (over_sep q) y ++ B ") ") R
    (HNode (T (over_type q) [ident x; TNode (Some tm); TNode (end_term y)])).
Proof.
  intros t q x u y R tm HX HU HG HR HT HY. destruct u as [|c1 u1]; [contradiction|]. open_gap R HR.
  destruct y as [[u' tm']|]; cbn [ForwardExpr.end_ok pre_text end_term app] in *.
  - destruct HY as (Y1 & Y2 & Y3). destruct u' as [|c2 u2]; [contradiction|].
    destruct q; cbn [over_word over_sep over_type] in *; (
    match goal with |- context [?s ++ c2 :: u2] => match goal with |- context [?w ++ name_text x ++ _] =>
    eapply (take_of col off inp (many [x ++ ["`"%char]; u1; u2] R') (effs [HAppend x; HNode tm; HNode tm']) fact_form 200 _
      (map Kn w ++ Ho 0 "`"%char :: map Kn (B " IN ") ++ Ho 1 c1 :: map Kn s ++ Ho 2 c2 :: map Kn (B ") ") ++ [Ho 9 c]) t) end end;
      [run_trun|reflexivity| |apply node_ok; run_node|unfold name_text; text_; reflexivity|text_; reflexivity]).
    all: holes_ ltac:(first [apply HT|apply Y3]).
  - destruct q; cbn [over_word over_sep over_type] in *; (
    match goal with |- context [?w ++ name_text x ++ _] =>
    eapply (take_of col off inp (many [x ++ ["`"%char]; u1] R') (effs [HAppend x; HNode tm]) fact_form 200 _
      (map Kn w ++ Ho 0 "`"%char :: map Kn (B " IN ") ++ Ho 1 c1 :: map Kn (B ") ") ++ [Ho 9 c]) t) end;
      [run_trun|reflexivity| |apply node_ok; run_node|unfold name_text; text_; reflexivity|text_; reflexivity]).
    all: holes_ ltac:(first [apply HT]).
Qed.

Lemma take_comp : forall t x u y z R tm, ~ In "`"%char x -> u <> [] ->
  gapfree (u ++ pre_text (B "WHERE ") y ++ pre_text (B "| ") z ++ B "] " ++ R) -> gapfree R ->
  (forall t', takes t' (PRule R_expression) u (pre_text (B "WHERE ") y ++ pre_text (B "| ") z ++ B "] " ++ R) (HNode tm)) ->
  end_ok y (pre_text (B "| ") z ++ B "] " ++ R) -> end_ok z (B "] " ++ R) ->
  takes t (PRule R__atom) (B "[ " ++ name_text x ++ B "IN " ++ u ++ pre_text (B "WHERE ") y ++ pre_text (B "| ") z ++ B "] ") R
    (HNode (T T_LIST_COMPREHENSION [ident x; TNode (Some tm); TNode (end_term y); TNode (end_term z)])).
Proof.
  intros t x u y z R tm HX HU HG HR HT HY HZ. destruct u as [|c1 u1]; [contradiction|]. open_gap R HR.
  destruct y as [[u' tm']|], z as [[u'' tm'']|]; cbn [ForwardExpr.end_ok pre_text end_term app] in *.
  - destruct HY as (Y1 & Y2 & Y3), HZ as (Z1 & Z2 & Z3). destruct u' as [|c2 u2]; [contradiction|]. destruct u'' as [|c3 u3]; [contradiction|].
    eapply (take_of col off inp (many [x ++ ["`"%char]; u1; u2; u3] R') (effs [HAppend x; HNode tm; HNode tm'; HNode tm'']) fact_form 200 _
      (map Kn (B "[ ") ++ Ho 0 "`"%char :: map Kn (B " IN ") ++ Ho 1 c1 :: map Kn (B "WHERE ") ++ Ho 2 c2 :: map Kn (B "| ") ++ Ho 3 c3 :: map Kn (B "] ") ++ [Ho 9 c]) t);
      [run_trun|reflexivity| |apply node_ok; run_node|unfold name_text; text_; reflexivity|text_; reflexivity].
    holes_ ltac:(first [apply HT|apply Y3|apply Z3]).
  - destruct HY as (Y1 & Y2 & Y3). destruct u' as [|c2 u2]; [contradiction|].
    eapply (take_of col off inp (many [x ++ ["`"%char]; u1; u2] R') (effs [HAppend x; HNode tm; HNode tm']) fact_form 200 _
      (map Kn (B "[ ") ++ Ho 0 "`"%char :: map Kn (B " IN ") ++ Ho 1 c1 :: map Kn (B "WHERE ") ++ Ho 2 c2 :: map Kn (B "] ") ++ [Ho 9 c]) t);
      [run_trun|reflexivity| |apply node_ok; run_node|unfold name_text; text_; reflexivity|text_; reflexivity].
    holes_ ltac:(first [apply HT|apply Y3]).
  - destruct HZ as (Z1 & Z2 & Z3). destruct u'' as [|c3 u3]; [contradiction|].
    eapply (take_of col off inp (many [x ++ ["`"%char]; u1; u3] R') (effs [HAppend x; HNode tm; HNode tm'']) fact_form 200 _
      (map Kn (B "[ ") ++ Ho 0 "`"%char :: map Kn (B " IN ") ++ Ho 1 c1 :: map Kn (B "| ") ++ Ho 2 c3 :: map Kn (B "] ") ++ [Ho 9 c]) t);
      [run_trun|reflexivity| |apply node_ok; run_node|unfold name_text; text_; reflexivity|text_; reflexivity].
    holes_ ltac:(first [apply HT|apply Z3]).
  - eapply (take_of col off inp (many [x ++ ["`"%char]; u1] R') (effs [HAppend x; HNode tm]) fact_form 200 _
      (map Kn (B "[ ") ++ Ho 0 "`"%char :: map Kn (B " IN ") ++ Ho 1 c1 :: map Kn (B "] ") ++ [Ho 9 c]) t);
      [run_trun|reflexivity| |apply node_ok; run_node|unfold name_text; text_; reflexivity|text_; reflexivity].
    holes_ ltac:(apply HT).
Qed.

Lemma take_reduce : forall t a ui x u y R ti tm, ~ In "`"%char a -> ~ In "`"%char x -> ui <> [] -> u <> [] ->
  gapfree (ui ++ B ", " ++ name_text x ++ B "IN " ++ u ++ pre_text (B "| ") y ++ B ") " ++ R) ->
  gapfree (u ++ pre_text (B "| ") y ++ B ") " ++ R) -> gapfree R ->
  (forall t', takes t' (PRule R_expression) ui (B ", " ++ name_text x ++ B "IN " ++ u ++ pre_text (B "| ") y ++ B ") " ++ R) (HNode ti)) ->
  (forall t', takes t' (PRule R_expression) u (pre_text (B "| ") y ++ B ") " ++ R) (HNode tm)) -> end_ok y (B ") " ++ R) ->
  takes t (PRule R__atom) (B "REDUCE ( " ++ name_text a ++ B "= " ++ ui ++ B ", " ++ name_text x ++ B "IN " ++ u ++ pre_text (B "| ") y ++ B ") ") R
    (HNode (T T_REDUCE [ident a; TNode (Some ti); ident x; TNode (Some tm); TNode (end_term y)])).
Proof.
  intros t a ui x u y R ti tm HA HX HI HU HG1 HG HR HTi HT HY. destruct u as [|c1 u1]; [contradiction|]. destruct ui as [|c3 u3]; [contradiction|].
  open_gap R HR. unfold name_text in *.
  assert (HG1' : gapfree ((c3 :: u3) ++ B ", " ++ B "`" ++ x ++ B "` " ++ B "IN " ++ (c1 :: u1) ++ pre_text (B "| ") y ++ B ") " ++ c :: R')).
  { rewrite <- !app_assoc in HG1. exact HG1. }
  assert (HTi' : forall t', takes t' (PRule R_expression) (c3 :: u3) (B ", " ++ B "`" ++ x ++ B "` " ++ B "IN " ++ (c1 :: u1) ++ pre_text (B "| ") y ++ B ") " ++ c :: R') (HNode ti)).
  { intros t'. specialize (HTi t'). rewrite <- !app_assoc in HTi. exact HTi. }
  clear HG1 HTi.
  destruct y as [[u' tm']|]; cbn [ForwardExpr.end_ok pre_text end_term app B list_ascii_of_string] in *.
  - destruct HY as (Y1 & Y2 & Y3). destruct u' as [|c2 u2]; [contradiction|].
    eapply (take_of col off inp (many [a ++ ["`"%char]; u1; u2; u3; x ++ ["`"%char]] R') (effs [HAppend a; HNode tm; HNode tm'; HNode ti; HAppend x]) fact_form 200 _
      (map Kn (B "REDUCE ( ") ++ Ho 0 "`"%char :: map Kn (B " = ") ++ Ho 3 c3 :: map Kn (B ", ") ++ Ho 4 "`"%char :: map Kn (B " IN ") ++ Ho 1 c1 :: map Kn (B "| ") ++ Ho 2 c2 :: map Kn (B ") ") ++ [Ho 9 c]) t);
      [run_trun|reflexivity| |apply node_ok; run_node|text_; reflexivity|text_; reflexivity].
    holes_ ltac:(first [apply HTi'|apply HT|apply Y3]).
  - eapply (take_of col off inp (many [a ++ ["`"%char]; u1; []; u3; x ++ ["`"%char]] R') (effs [HAppend a; HNode tm; HNone; HNode ti; HAppend x]) fact_form 200 _
      (map Kn (B "REDUCE ( ") ++ Ho 0 "`"%char :: map Kn (B " = ") ++ Ho 3 c3 :: map Kn (B ", ") ++ Ho 4 "`"%char :: map Kn (B " IN ") ++ Ho 1 c1 :: map Kn (B ") ") ++ [Ho 9 c]) t);
      [run_trun|reflexivity| |apply node_ok; run_node|text_; reflexivity|text_; reflexivity].
    holes_ ltac:(first [apply HTi'|apply HT]).
Qed.
(** *** Calls *)
Lemma take_call0 : forall t f d R, ~ In "`"%char f -> gapfree R ->
  takes t (PRule R__atom) (name_text f ++ B "( " ++ distinct_text d ++ B ") ") R
    (HNode (T T_APPLY_OPERATOR [TNode (Some (T T_FUNCTION_NAME [TStr f])); TBool d; TList []])).
Proof.
  intros t f d R HF HG. open_gap R HG. destruct d; cbn [distinct_text app].
  - eapply (take_of col off inp (many [f ++ ["`"%char]] R') (effs [HAppend f]) fact_form 200 _ (Ho 0 "`"%char :: map Kn (B " ( DISTINCT ) ") ++ [Ho 9 c]) t);
      [run_trun|reflexivity| |apply node_ok; run_node|unfold name_text; text_; reflexivity|text_; reflexivity].
    holes_ fail.
  - eapply (take_of col off inp (many [f ++ ["`"%char]] R') (effs [HAppend f]) fact_form 200 _ (Ho 0 "`"%char :: map Kn (B " ( ) ") ++ [Ho 9 c]) t);
      [run_trun|reflexivity| |apply node_ok; run_node|unfold name_text; text_; reflexivity|text_; reflexivity].
    holes_ fail.
Qed.
Lemma take_callall : forall t f d R, ~ In "`"%char f -> gapfree R ->
  takes t (PRule R__atom) (name_text f ++ B "( " ++ distinct_text d ++ B "* ) ") R
    (HNode (T T_APPLY_ALL_OPERATOR [TNode (Some (T T_FUNCTION_NAME [TStr f])); TBool d])).
Proof.
  intros t f d R HF HG. open_gap R HG. destruct d; cbn [distinct_text app].
  - eapply (take_of col off inp (many [f ++ ["`"%char]] R') (effs [HAppend f]) fact_form 200 _ (Ho 0 "`"%char :: map Kn (B " ( DISTINCT * ) ") ++ [Ho 9 c]) t);
      [run_trun|reflexivity| |apply node_ok; run_node|unfold name_text; text_; reflexivity|text_; reflexivity].
    holes_ fail.
  - eapply (take_of col off inp (many [f ++ ["`"%char]] R') (effs [HAppend f]) fact_form 200 _ (Ho 0 "`"%char :: map Kn (B " ( * ) ") ++ [Ho 9 c]) t);
      [run_trun|reflexivity| |apply node_ok; run_node|unfold name_text; text_; reflexivity|text_; reflexivity].
    holes_ fail.
Qed.
Lemma take_call : forall t f d c1 u1 us R tm ts, ~ In "`"%char f -> In c1 first_chars -> gapfree ((c1 :: u1) ++ us ++ B ") " ++ R) -> gapfree R ->
  (forall t', takes t' (PRule R_expression) (c1 :: u1) (us ++ B ") " ++ R) (HNode tm)) ->
  rep (comma_item 1) SNode 1 us ts (B ") " ++ R) ->
  takes t (PRule R__atom) (name_text f ++ B "( " ++ distinct_text d ++ (c1 :: u1) ++ us ++ B ") ") R
    (HNode (T T_APPLY_OPERATOR [TNode (Some (T T_FUNCTION_NAME [TStr f])); TBool d; TList (tm :: ts)])).
Proof.
  intros t f d c1 u1 us R tm ts HF H1 HG HR HT HP. open_gap R HR.
  assert (H2 : forall t r u, In r [R_DISTINCT; R_STAR] -> refuses t (PRule r) (c1 :: u)).
  { intros t' r u HI. apply refuse_first; [cbn in HI |- *; tauto|exact H1]. }
  clear H1. assert (HD := fun t u => H2 t R_DISTINCT u ltac:(cbn; auto)). assert (HS := fun t u => H2 t R_STAR u ltac:(cbn; auto)). clear H2.
  rep_ HP us' HL.
  - destruct d; cbn [distinct_text app].
    + eapply (take_of col off inp (many [f ++ ["`"%char]; u1] R') (effs [HAppend f; HNode tm]) fact_form 200 _
        (Ho 0 "`"%char :: map Kn (B " ( DISTINCT ") ++ Ho 1 c1 :: map Kn (B ") ") ++ [Ho 9 c]) t);
        [run_trun|reflexivity| |apply node_ok; run_node|unfold name_text; text_; reflexivity|text_; reflexivity].
      holes_ ltac:(first [apply HT|apply HD|apply HS]).
    + eapply (take_of col off inp (many [f ++ ["`"%char]; u1] R') (effs [HAppend f; HNode tm]) fact_form 200 _
        (Ho 0 "`"%char :: map Kn (B " ( ") ++ Ho 1 c1 :: map Kn (B ") ") ++ [Ho 9 c]) t);
        [run_trun|reflexivity| |apply node_ok; run_node|unfold name_text; text_; reflexivity|text_; reflexivity].
      holes_ ltac:(first [apply HT|apply HD|apply HS]).
  - rewrite <- (app_nil_r ts). destruct d; cbn [distinct_text app].
    + eapply (take_of col off inp (many [f ++ ["`"%char]; u1; []; []; []; us'] R') (effs [HAppend f; HNode tm; HNone; HNone; HNone; HSeq SNode 1 ts]) fact_form 200 _
        (Ho 0 "`"%char :: map Kn (B " ( DISTINCT ") ++ Ho 1 c1 :: Ho 5 ","%char :: map Kn (B ") ") ++ [Ho 9 c]) t);
        [run_trun|reflexivity| |apply node_ok; run_node|unfold name_text; text_; reflexivity|text_; reflexivity].
      holes_ ltac:(first [apply HT|apply HD|apply HS|apply star_of_plus; apply HL]).
    + eapply (take_of col off inp (many [f ++ ["`"%char]; u1; []; []; []; us'] R') (effs [HAppend f; HNode tm; HNone; HNone; HNone; HSeq SNode 1 ts]) fact_form 200 _
        (Ho 0 "`"%char :: map Kn (B " ( ") ++ Ho 1 c1 :: Ho 5 ","%char :: map Kn (B ") ") ++ [Ho 9 c]) t);
        [run_trun|reflexivity| |apply node_ok; run_node|unfold name_text; text_; reflexivity|text_; reflexivity].
      holes_ ltac:(first [apply HT|apply HD|apply HS|apply star_of_plus; apply HL]).
Qed.

(** *** CASE *)
Lemma even_cut : forall (ts : list term) n, List.length ts = 2 * n -> firstn (2 * Nat.div2 (List.length (ts ++ []))) (ts ++ []) = ts.
Proof.
  intros ts n H. rewrite app_nil_r, H, Nat.div2_double, <- H. apply firstn_all.
Qed.
Definition head_term (x : option (bytes * term)) : skind := match x with Some _ => SNode | None => SNull end.
Lemma take_case : forall t x us z R ts n, gapfree R -> List.length ts = 2 * n ->
  end_ok x (("W"%char :: us) ++ pre_text (B "ELSE ") z ++ B "END " ++ R) ->
  (forall c u tm, x = Some (c :: u, tm) -> In c first_chars) ->
  (forall t', takes t' (PPlus alternative) ("W"%char :: us) (pre_text (B "ELSE ") z ++ B "END " ++ R) (HSeq (head_term x) 1 ts)) ->
  end_ok z (B "END " ++ R) ->
  takes t (PRule R__atom) (B "CASE " ++ pre_text [] x ++ ("W"%char :: us) ++ pre_text (B "ELSE ") z ++ B "END ") R
    (HNode (T T_CASE [TNode (end_term x); TList ts; TNode (end_term z)])).
Proof.
  intros t x us z R ts n HG HL HX HF HA HZ. open_gap R HG. rewrite <- (even_cut ts n HL).
  destruct x as [[u tm]|], z as [[w tm']|]; cbn [ForwardExpr.end_ok pre_text end_term head_term app] in *.
  - destruct HX as (X1 & X2 & X3), HZ as (Z1 & Z2 & Z3). destruct u as [|c1 u1]; [contradiction|]. destruct w as [|c2 u2]; [contradiction|].
    assert (HN := fun t v => refuse_plus _ _ _ _ _ _ (refuse_first col off inp t R_case_alternative c1 v ltac:(cbn; auto) (HF c1 u1 tm eq_refl))). clear HF.
    eapply (take_of col off inp (many [[]; u1; u2; []; []; us] R') (effs [HNone; HNode tm; HNode tm'; HNone; HNone; HSeq SNode 1 ts]) fact_form 200 _
      (map Kn (B "CASE ") ++ Ho 1 c1 :: Ho 5 "W"%char :: map Kn (B "ELSE ") ++ Ho 2 c2 :: map Kn (B "END ") ++ [Ho 9 c]) t);
      [run_trun|reflexivity| |apply node_ok; run_node|text_; reflexivity|text_; reflexivity].
    holes_ ltac:(first [apply HA|apply HN|apply X3|apply Z3]).
  - destruct HX as (X1 & X2 & X3). destruct u as [|c1 u1]; [contradiction|].
    assert (HN := fun t v => refuse_plus _ _ _ _ _ _ (refuse_first col off inp t R_case_alternative c1 v ltac:(cbn; auto) (HF c1 u1 tm eq_refl))). clear HF.
    eapply (take_of col off inp (many [[]; u1; []; []; []; us] R') (effs [HNone; HNode tm; HNone; HNone; HNone; HSeq SNode 1 ts]) fact_form 200 _
      (map Kn (B "CASE ") ++ Ho 1 c1 :: Ho 5 "W"%char :: map Kn (B "END ") ++ [Ho 9 c]) t);
      [run_trun|reflexivity| |apply node_ok; run_node|text_; reflexivity|text_; reflexivity].
    holes_ ltac:(first [apply HA|apply HN|apply X3]).
  - destruct HZ as (Z1 & Z2 & Z3). destruct w as [|c2 u2]; [contradiction|].
    eapply (take_of col off inp (many [[]; []; u2; []; []; us] R') (effs [HNone; HNone; HNode tm'; HNone; HNone; HSeq SNull 1 ts]) fact_form 200 _
      (map Kn (B "CASE ") ++ Ho 5 "W"%char :: map Kn (B "ELSE ") ++ Ho 2 c2 :: map Kn (B "END ") ++ [Ho 9 c]) t);
      [run_trun|reflexivity| |apply node_ok; run_node|text_; reflexivity|text_; reflexivity].
    holes_ ltac:(first [apply HA|apply Z3]).
  - eapply (take_of col off inp (many [[]; []; []; []; []; us] R') (effs [HNone; HNone; HNone; HNone; HNone; HSeq SNull 1 ts]) fact_form 200 _
      (map Kn (B "CASE ") ++ Ho 5 "W"%char :: map Kn (B "END ") ++ [Ho 9 c]) t);
      [run_trun|reflexivity| |apply node_ok; run_node|text_; reflexivity|text_; reflexivity].
    holes_ ltac:(first [apply HA]).
Qed.
End Form.
