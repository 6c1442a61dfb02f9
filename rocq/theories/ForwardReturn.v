(** * Statements that return an expression, and the text of an expression *)
From Coq Require Import List Bool Arith Ascii String ZArith Lia Permutation.
From Verif Require Import Peg PegProofs PegThunks QuickModel QuickSpec QuickProofs CypherSyntax CypherGrammar OperModel ErrModel
  CypherMatch AstTypes AstModel CypherBuild CypherExec CypherParse CypherRun CypherRound CypherLoop CypherInv CypherChain CypherSpec SafeSpec
  NodeFacts NodeHeld FlowSound FlowRun SafeProofs SkipProofs TraceSpec TraceProofs LexSpec LexProofs TermSpec Forward ForwardExec ForwardLex
  ForwardStep ForwardAtom ForwardExpr ForwardName ForwardNum ForwardPat ExprSpec ForwardPrint ForwardTop.
Import ListNotations.
Open Scope peg_scope.
Opaque parse_one cfuel.
Strategy expand [crun].

Definition fact_return : cexp -> list tok -> verdict := tight (fun e w =>
  match e, w with
  | PRule R_expression, (Ho 0 _) :: w' => FTake 0 w'
  | PRule R_symbolic_name, (Ho 1 _) :: w' => FTake 1 w'
  | _, _ => FNone
  end).
Definition return_toks (c : ascii) : list tok :=
  map Kn (B "RETURN ") ++ [Ho 0 c] ++ map Kn (B "AS ") ++ [Ho 1 "`"%char] ++ map Kn (B " ;").

Ltac run_top :=
  intros;
  lazymatch goal with |- exists h ret pv ops sb hp, ?x = _ /\ _ =>
    let v := eval vm_compute in x in
    lazymatch v with
    | Some (mkx _ ?ret _ _ [S ?h] ?pv ?ops ?sb _ _ ?hp) =>
        exists h, ret, pv, ops, sb, hp; split; [vm_cast_no_check (eq_refl v)|reflexivity]
    | _ => fail "execution" v
    end
  end.

Lemma top_generic : forall eff inp rest_of tr tm,
  (forall sl tf (cf : list term -> list oper -> list oper * list oper) g, exists h ret pv ops sb hp,
     texec eff sl tf cf tr (x_node g []) = Some (mkx [] ret [] [] [S h] pv ops sb (Some (Some (S h))) false hp) /\
     nth_error hp (S h) = Some [tm]) ->
  forall g, exists h ret pv ops sb hp,
     texec eff (slice_real inp rest_of) trim chain_real tr (x_node g []) =
       Some (mkx [] ret [] [] [S h] pv ops sb (Some (Some (S h))) false hp) /\ nth_error hp (S h) = Some [tm].
Proof. intros eff inp rest_of tr tm H g. apply H. Qed.

Lemma return_round : forall cf la fl y e u x, prints 0 e u -> ~ In "`"%char x ->
  bq_ok (return_text u x) -> quiet y -> (forall p, List.length (return_text u x) <= la (return_text u x) p) ->
  exists lines a us, parse_one cf la (start_rule fl) (return_text u x) y = RdOk (List.length (return_text u x)) lines a us /\
    said_by (return_term (ex_term e) x) a /\ a_errs a = [] /\ a_eof a = false.
Proof.
  intros cf la fl y e u x HP HX Hbq Hq Hla.
  pose proof (fun t R => reads_top (cf_color cf) (y_off y) (return_text u x) e u t R
    (proj1 (all_read (cf_color cf) (y_off y) (return_text u x)) 0 e u HP) (print_nonempty _ _ _ HP)) as HR.
  pose proof (fun R => print_gapfree 0 e u R HP) as HG.
  destruct (print_first 0 e u HP) as (c & u' & -> & HC).
  assert (HN : return_text (c :: u') x <> []) by discriminate.
  assert (HE : return_text (c :: u') x = text (two u' (x ++ ["`"%char])) (return_toks c)).
  { unfold return_text, return_toks. text_. reflexivity. }
  remember (return_text (c :: u') x) as inp eqn:HI. clear HI.
  revert HR. generalize (ex_term e). intros tm HR. clear HP e. 
  destruct fl as [sg os]. unfold first_chars in HC. cbn in HC.
  assert (H1 : forall t, takes (cf_color cf) (y_off y) inp t (PRule R_expression) (c :: u') (B "AS `" ++ x ++ B "` ;") (HNode tm)).
  { intros t. apply HR. apply (cl_word (B "AS ") (B "`" ++ x ++ B "` ;")). cbn. auto. }
  assert (H2 : forall t, takes (cf_color cf) (y_off y) inp t (PRule R_symbolic_name) (B "`" ++ x ++ B "`") (B " ;") (HAppend x)).
  { intros t. apply take_backquoted. exact HX. }
  specialize (HG (B "AS `" ++ x ++ B "` ;")). clear HR.
  destruct os;
  repeat (destruct HC as [<-|HC];
    [match type of HE with _ = text _ ?w =>
       eapply (round_top cf la _ inp y (two u' (x ++ ["`"%char])) (two_eff (HNode tm) (HAppend x)) fact_return 100 w) end;
       [exact Hbq|exact Hq|exact HN|exact Hla|run_trun|symmetry; exact HE| |apply top_generic; run_top];
     obs_ ltac:(eapply ob_take; [cbn [two_eff]; text_; first [apply H1|apply H2]|text_; reflexivity])|]);
  contradiction.
Qed.

Lemma return_parse : forall cf la cb fl e u x, prints 0 e u -> ~ In "`"%char x ->
  no_newline_in_names (return_text u x) -> (forall s p, List.length s <= la s p) -> (forall segs, cb segs = 0%Z) ->
  exists seg root en, parse_each cf la cb fl (return_text u x) = PRet 0 [seg] (Some en) /\ s_errors seg = [] /\ s_roots seg = [root] /\
    s_directive seg = Some (nid root) /\ s_eof seg = false /\ term_of root = return_term (ex_term e) x.
Proof.
  intros cf la cb fl e u x HP HX HN Hla Hcb. apply parse_top; [discriminate|exact Hcb|].
  apply return_round; [exact HP|exact HX|apply bq_of; exact HN|apply quiet_0|intros p; apply Hla].
Qed.

Lemma return_parse_all : forall cf la fl e u x, prints 0 e u -> ~ In "`"%char x ->
  no_newline_in_names (return_text u x) -> (forall s p, List.length s <= la s p) ->
  exists r root last, parse_all cf la fl (return_text u x) = ARes r last /\ pr_errors r = [] /\ pr_roots r = [root] /\
    pr_directives r = [nid root] /\ term_of root = return_term (ex_term e) x.
Proof.
  intros cf la fl e u x HP HX HN Hla.
  destruct (return_parse cf la never fl e u x HP HX HN Hla (fun _ => eq_refl)) as (seg & root & en & K1 & K2 & K3 & K4 & K5 & K6).
  unfold parse_all. fold never. rewrite K1. cbn [fold_left]. eexists _, root, (Some en). split; [reflexivity|].
  cbn. rewrite K2, K3, K4. auto.
Qed.

(** ** The text of an expression is one of its texts *)
Lemma decode_quote : forall v, decode "'" (flat_map quote1 v) = Some v.
Proof.
  induction v as [|c v IH]; [reflexivity|]. cbn [flat_map]. unfold quote1 at 1.
  destruct (Ascii.eqb_spec c "'") as [->|N1]; [cbn; rewrite IH; reflexivity|].
  destruct (Ascii.eqb_spec c "\") as [->|N2]; [cbn; rewrite IH; reflexivity|].
  destruct (Ascii.eqb_spec c "010") as [->|N3]; [cbn; rewrite IH; reflexivity|].
  cbn [orb app decode]. apply Ascii.eqb_neq in N1, N2. rewrite N1, N2, IH. reflexivity.
Qed.
Lemma quote_text : forall v, quoted_text (quote v) v.
Proof. intros v. exists "'"%char, (flat_map quote1 v). split; [left; reflexivity|]. split; [reflexivity|apply decode_quote]. Qed.

Lemma show_paren : forall k e u, prints (own_level e) e u -> (bare e = true -> k <= own_level e) -> 
  (forall k, k <= own_level e -> prints k e u) ->
  prints k e (if Nat.leb k (own_level e) then u else B "( " ++ u ++ B ") ").
Proof.
  intros k e u _ HB HP. destruct (Nat.leb_spec k (own_level e)) as [L|L]; [apply HP; exact L|].
  apply p_paren; [|apply HP; lia]. destruct (bare e); [|reflexivity]. specialize (HB eq_refl). lia.
Qed.
Lemma show_more : forall es, all_all (fun x => prints 0 x (show 0 x)) es -> prints_more es (more_text (show 0) es).
Proof.
  induction es as [|e es IH]; intros H; [apply pm_none|]. destruct H as [H1 H2].
  change (more_text (show 0) (e :: es)) with ((B ", " ++ show 0 e) ++ more_text (show 0) es). apply pm_some; auto.
Qed.
Definition entry_text (x : bytes * ex) : bytes := name_text (fst x) ++ B ": " ++ show 0 (snd x).
Lemma show_entries : forall es, all_all (fun x => ~ In "`"%char (fst x) /\ prints 0 (snd x) (show 0 (snd x))) es ->
  prints_entries es (more_text entry_text es).
Proof.
  induction es as [|[v e] es IH]; intros H; [apply pe_none|]. destruct H as [[H0 H1] H2].
  change (more_text entry_text ((v, e) :: es)) with ((B ", " ++ name_text v ++ B ": " ++ show 0 e) ++ more_text entry_text es). apply pe_some; auto.
Qed.
Definition alt_text (x : ex * ex) : bytes := B "WHEN " ++ show 0 (fst x) ++ B "THEN " ++ show 0 (snd x).
Lemma show_alts : forall es, es <> [] -> all_all (fun x => prints 0 (fst x) (show 0 (fst x)) /\ prints 0 (snd x) (show 0 (snd x))) es ->
  prints_alts es (flat_map alt_text es).
Proof.
  induction es as [|[c r] es IH]; intros HN H; [congruence|]. destruct H as [[H0 H1] H2]. destruct es as [|y es].
  - cbn [flat_map]. rewrite app_nil_r. apply pa_last; assumption.
  - change (flat_map alt_text ((c, r) :: y :: es)) with ((B "WHEN " ++ show 0 c ++ B "THEN " ++ show 0 r) ++ flat_map alt_text (y :: es)).
    apply pa_more; auto. apply IH; [discriminate|exact H2].
Qed.
Lemma show_prints : forall e k, well_formed e -> clear k e -> prints k e (show k e).
Proof.
  fix IH 1. intros e k HW HC.
  assert (HB : bare e = true -> k <= own_level e) by (destruct e; exact (proj1 HC)).
  assert (HP : forall k', k' <= own_level e -> prints k' e (show 0 e)).
  { intros k' Hk. destruct e; cbn [show own_level Nat.leb] in *; cbn [well_formed] in HW; destruct HC as [_ HC].
    - apply p_str, quote_text.
    - destruct HW. apply p_int; auto.
    - apply p_param. exact HW.
    - apply (p_ident k' v). exact HW.
    - apply p_true.
    - apply p_false.
    - apply p_null.
    - destruct HW as [H1 H2]. apply p_un; [exact H1|exact Hk|apply IH; assumption].
    - destruct HW as [H1 [H2 H3]], HC as [C1 C2]. apply p_bin; auto.
    - destruct HW as (H1 & H2 & H3), HC as [C1 C2]. apply p_cmp; [exact Hk|apply IH; assumption|].
      clear - IH H2 H3 C2. induction links as [|[o x] ls IHl]; [contradiction|].
      destruct H3 as [[O1 W1] W2], C2 as [D1 D2]. cbn [fst snd] in O1, W1, D1.
      destruct ls as [|y ls].
      + cbn. rewrite app_nil_r. apply pl_last; [exact O1|apply IH; assumption].
      + change (links_text (show 7) ((o, x) :: y :: ls)) with ((op_text o ++ show 7 x) ++ links_text (show 7) (y :: ls)).
        apply pl_more; [exact O1|apply IH; assumption|apply IHl; [discriminate|exact W2|exact D2]].
    - destruct HW as [H1 H2]. apply p_post; [exact H1|exact Hk|apply IH; assumption].
    - destruct HW as [H1 H2]. apply p_prop; [exact H1|exact Hk|apply IH; assumption].
    - destruct HW as [H1 H2], HC as [C1 C2]. apply p_sub; [exact Hk|apply IH; assumption|apply IH; assumption].
    - destruct HW as (H1 & H2 & H3), HC as (C1 & C2 & C3). apply p_slice; [exact Hk|apply IH; assumption| |].
      + destruct a as [a|]; [apply (po_some []), IH; assumption|apply po_none].
      + destruct b as [b|]; [apply (po_some []), IH; assumption|apply po_none].
    - destruct HC as [C1 C2]. 
      assert (K : all_all (fun x => prints 0 x (show 0 x)) es).
      { clear - IH HW C2. induction es as [|x es IHe]; [exact I|]. destruct HW, C2. split; [apply IH; assumption|apply IHe; assumption]. }
      destruct es as [|x es]; [apply p_list0|]. destruct K as [K1 K2]. cbn [all_text]. rewrite <- app_assoc.
      apply p_list; [exact C1|exact K1|apply show_more; exact K2].
    - assert (K : all_all (fun x => ~ In "`"%char (fst x) /\ prints 0 (snd x) (show 0 (snd x))) es).
      { clear - IH HW HC. induction es as [|[v x] es IHe]; [exact I|]. destruct HW as [[W0 W1] W2], HC as [C1 C2]. cbn [fst snd] in *.
        split; [split; [exact W0|apply IH; assumption]|apply IHe; assumption]. }
      destruct es as [|[v x] es]; [apply p_map0|]. destruct K as [[K0 K1] K2]. cbn [all_text fst snd]. rewrite <- !app_assoc.
      apply p_map; [exact K0|exact K1|apply show_entries; exact K2].
    - destruct HW as (W0 & W1 & W2), HC as (C1 & C2). apply p_over; [exact W0|apply IH; assumption|].
      destruct p as [p|]; [apply po_some, IH; assumption|apply po_none].
    - destruct HW as (W0 & W1 & W2 & W3), HC as (C1 & C2 & C3). apply p_comp; [exact W0|apply IH; assumption| |].
      + destruct p as [p|]; [apply po_some, IH; assumption|apply po_none].
      + destruct v as [v|]; [apply po_some, IH; assumption|apply po_none].
    - destruct HW as (W0 & W1 & W2 & W3 & W4), HC as (C1 & C2 & C3). apply p_reduce; [exact W0|apply IH; assumption|exact W2|apply IH; assumption|].
      destruct v as [v|]; [apply po_some, IH; assumption|apply po_none].
    - destruct HW as [W0 W1].
      assert (K : all_all (fun x => prints 0 x (show 0 x)) es).
      { clear - IH W1 HC. induction es as [|x es IHe]; [exact I|]. destruct W1, HC. split; [apply IH; assumption|apply IHe; assumption]. }
      destruct es as [|x es]; [apply p_call0; exact W0|]. destruct K as [K1 K2]. cbn [all_text]. rewrite <- app_assoc.
      apply p_call; [exact W0|exact K1|apply show_more; exact K2].
    - apply p_callall. exact HW.
    - destruct HW as (W0 & W1 & W2 & W3), HC as (C1 & C2 & C3).
      assert (K : all_all (fun x => prints 0 (fst x) (show 0 (fst x)) /\ prints 0 (snd x) (show 0 (snd x))) alts).
      { clear - IH W2 C2. induction alts as [|[c r] es IHe]; [exact I|]. destruct W2 as [[Wc Wr] W2], C2 as [[Cc Cr] C2]. cbn [fst snd] in *.
        split; [split; apply IH; assumption|apply IHe; assumption]. }
      apply p_case; [|apply show_alts; assumption|].
      + destruct e as [e|]; [apply (po_some []), IH; assumption|apply po_none].
      + destruct d as [d|]; [apply po_some, IH; assumption|apply po_none]. }
  assert (E : show k e = if Nat.leb k (own_level e) then show 0 e else B "( " ++ show 0 e ++ B ") ") by (destruct e; reflexivity).
  rewrite E. apply show_paren; [apply HP; lia|exact HB|exact HP].
Qed.

Lemma quote_no_newline : forall v, ~ In "010"%char (quote v).
Proof.
  intros v. unfold quote. intros H. apply in_app_or in H. destruct H as [H|H]; [cbn in H; intuition discriminate|].
  apply in_app_or in H. destruct H as [H|H]; [|cbn in H; intuition discriminate].
  apply in_flat_map in H. destruct H as (c & HI & H). clear HI. revert H. unfold quote1.
  destruct (Ascii.eqb_spec c "'") as [->|N1]; [cbn; intuition discriminate|].
  destruct (Ascii.eqb_spec c "\") as [->|N2]; [cbn; intuition discriminate|].
  destruct (Ascii.eqb_spec c "010") as [->|N3]; [cbn; intuition discriminate|].
  cbn. intros [H|[]]. congruence.
Qed.
