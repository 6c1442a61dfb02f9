(** * What the rules of clauses take *)
From Coq Require Import List Bool Arith Ascii String ZArith Lia Permutation.
From Verif Require Import Peg PegProofs PegThunks QuickModel QuickSpec QuickProofs CypherSyntax CypherGrammar OperModel ErrModel
  CypherMatch AstTypes AstModel CypherBuild CypherExec CypherParse CypherRun CypherRound CypherSpec
  NodeFacts NodeHeld FlowSound FlowRun SafeProofs TraceSpec TraceProofs LexSpec LexProofs TermSpec Forward ForwardExec ForwardLex
  ForwardStep ForwardAtom ForwardExpr ForwardName ForwardNum ForwardPat ForwardForm ExprSpec ForwardPrint StmtSpec ForwardStmt.
Import ListNotations.
Open Scope peg_scope.
Opaque parse_one cfuel.
Strategy expand [crun].

(** ** What can follow *)
Definition clause_words : list bytes :=
  [B "MATCH "; B "OPTIONAL "; B "RETURN "; B "UNWIND "; B "MERGE "; B "CREATE "; B "SET "; B "DELETE "; B "DETACH "; B "REMOVE ";
   B "WITH "; B "FOREACH "; B "CALL "; B "LOAD "; B "START "; B "UNION "].
(** a clause; and the parts of one *)
Definition w_after : list bytes := clause_words ++ [B ";"; B ")"].
Definition w_where : list bytes := B "WHERE " :: w_after.
Definition w_limit : list bytes := B "LIMIT " :: w_where.
Definition w_skip : list bytes := B "SKIP " :: w_limit.
Definition w_order : list bytes := B "ORDER " :: w_skip.
Definition w_item : list bytes := B "," :: B "ON " :: B "USING " :: w_order.

Ltac in_ := repeat first [left; reflexivity|right].
Definition calm (w : bytes) : Prop := (exists c w', w = c :: w' /\ In c (B ")],;|}")) \/ In w close_words.
Lemma calm_item : Forall calm w_item.
Proof. repeat (apply Forall_cons; [first [right; solve [in_]|left; eexists; eexists; split; [reflexivity|solve [in_]]]|]); apply Forall_nil. Qed.
Lemma begins_closer : forall R, begins w_item R -> closer R.
Proof.
  intros R (w & R' & H & ->). pose proof calm_item as K. rewrite Forall_forall in K. destruct (K w H) as [(c & w' & -> & HC)|HC].
  - apply (cl_char c (w' ++ R')). exact HC.
  - apply cl_word. exact HC.
Qed.
Lemma closer_gapfree : forall R, closer R -> gapfree R.
Proof. intros R H. apply nocall_gapfree, closer_nocall, H. Qed.
Lemma gapfree_nonempty : forall R, gapfree R -> R <> [].
Proof. intros R [(c & R' & -> & _)|(R' & ->)]; discriminate. Qed.
(** one list of words is the end of the other *)
Ltac i_ := let w := fresh in let H := fresh in intros w H; first [exact H|right; exact H|do 2 right; exact H|do 3 right; exact H|do 4 right; exact H|do 5 right; exact H|do 6 right; exact H|do 7 right; exact H].
Lemma after_gap : forall ws R, begins ws R -> incl ws w_item -> gapfree R.
Proof. intros ws R H HI. apply closer_gapfree, begins_closer. exact (begins_more _ _ _ H HI). Qed.
Lemma name_gapfree : forall x R, gapfree (name_text x ++ R).
Proof. intros x R. left. eexists; eexists; split; [reflexivity|cbn [In]; intuition discriminate]. Qed.

Lemma takes_at : forall col off inp t e u R R' h, takes col off inp t e u R h -> R = R' -> takes col off inp t e u R' h.
Proof. intros. subst. assumption. Qed.
Lemma refuses_at : forall col off inp t e R R', refuses col off inp t e R -> R = R' -> refuses col off inp t e R'.
Proof. intros. subst. assumption. Qed.

(** ** Tactics: [open_ T c r E G] names the first byte of the text [T] *)
Lemma gap_open : forall T, gapfree T -> exists c r, T = c :: r /\ gapfree (c :: r).
Proof. intros T H. pose proof H as K. destruct K as [(c & r & -> & _)|(r & ->)]; eauto. Qed.
Ltac open_ T c r E G :=
  let H := fresh in assert (H : gapfree T); [|destruct (gap_open _ H) as (c & r & E & G); clear H].
Ltac fold_texts := repeat match goal with E : ?T = ?c :: ?r |- context [?c :: ?r] => rewrite <- E end.
Ltac nrm_ := unfold name_text; text_; fold_texts; unfold name_text; text_.
Ltac hole_ tac :=
  obs_ ltac:(first [eapply ob_take; [cbn [effs nth]; eapply takes_at; [solve [tac]|nrm_; reflexivity]|nrm_; reflexivity]
                   |apply ob_refuse; eapply refuses_at; [solve [tac]|nrm_; reflexivity]]).
Ltac stop_ := repeat (apply Forall_cons; [split; [discriminate|intros; eexists; split; vm_compute; reflexivity]|]); apply Forall_nil.

Section Clause.
Variables (col : coloring) (off : position) (inp : bytes).
Notation runc := (run CG (get_of inp) (cprun col off)).
Notation vis := (visits col off inp).
Notation cst := (pst action cuser).
Notation performs := (performs inp).
Notation takes := (takes col off inp).
Notation refuses := (refuses col off inp).
Notation element := (element col off inp).

(** ** Words and names *)
Definition goes_past (r : rule) (w : bytes) : Prop :=
  forall c t, exists t' obs, trun (tight nofact) 80 (PRule r) (map Kn w ++ [Ho 9 c]) t = TOk [Ho 9 c] t' [] true obs /\ t_prs t' = t_prs t /\
    Forall (fun o => o = mko sp1 [Ho 9 c] t FPass) obs.
Lemma word_past : forall r w R t, goes_past r w -> gapfree R -> takes t (PRule r) w R HNone.
Proof.
  intros r w R t HP HG. pose proof HG as HG'. open_gap R HG. destruct (HP c t) as (t' & obs & H1 & H2 & H3).
  eapply (take_of col off inp (many [] R') (effs []) (tight nofact) 80 _ (map Kn w ++ [Ho 9 c]) t); [exact H1|exact H2| |apply none_ok| |].
  - eapply Forall_impl; [|exact H3]. intros o ->. apply ob_sp. text_. exact HG'.
  - rewrite text_known. text_. reflexivity.
  - text_. reflexivity.
Qed.
Definition fact_name : cexp -> list tok -> verdict := tight (fun e w =>
  match e, w with PRule R_symbolic_name, (Ho 0 _) :: w' => FTake 0 w' | _, _ => FNone end).
Ltac name_rule x R' toks :=
  eapply (take_of col off inp (many [x ++ ["`"%char]] R') (effs [HAppend x]) fact_name 60 _ toks); 
    [run_trun|reflexivity| |apply node_ok; run_node|unfold name_text; text_; reflexivity|text_; reflexivity];
  obs_ ltac:(eapply ob_take; [cbn [effs nth]; text_; apply take_backquoted; assumption|text_; reflexivity]).
Lemma take_name : forall t x R, plain_name x -> gapfree R -> takes t (PRule R_identifier) (name_text x) R (HNode (named T_IDENTIFIER x)).
Proof. intros t x R HX HG. open_gap R HG. name_rule x R' [Ho 0 "`"%char; Kn " "%char; Ho 9 c]. Qed.
Lemma take_prop_name : forall t x R, plain_name x -> gapfree R -> takes t (PRule R_prop_name) (name_text x) R (HNode (named T_PROP_NAME x)).
Proof. intros t x R HX HG. open_gap R HG. name_rule x R' [Ho 0 "`"%char; Kn " "%char; Ho 9 c]. Qed.
Lemma take_type_name : forall t x R, plain_name x -> gapfree R -> takes t (PRule R_rel_type_name) (name_text x) R (HNode (named T_RELTYPE x)).
Proof. intros t x R HX HG. open_gap R HG. name_rule x R' [Ho 0 "`"%char; Kn " "%char; Ho 9 c]. Qed.
Lemma take_label : forall t x R, plain_name x -> gapfree R -> takes t (PRule R_label) (B ": " ++ name_text x) R (HNode (named T_LABEL x)).
Proof. intros t x R HX HG. open_gap R HG. name_rule x R' (map Kn (B ": ") ++ [Ho 0 "`"%char; Kn " "%char; Ho 9 c]). Qed.
Lemma take_type : forall t x R, plain_name x -> gapfree R -> takes t (PRule R_rel_type) (B ": " ++ name_text x) R (HNode (named T_RELTYPE x)).
Proof. intros t x R HX HG. open_gap R HG. name_rule x R' (map Kn (B ": ") ++ [Ho 0 "`"%char; Kn " "%char; Ho 9 c]). Qed.
Lemma take_ex : forall e u R t, prints 0 e u -> closer R -> takes t (PRule R_expression) u R (HNode (ex_term e)).
Proof. intros e u R t HP HC. apply reads_top; [exact (proj1 (all_read col off inp) 0 e u HP)|exact (print_nonempty _ _ _ HP)|exact HC]. Qed.
Lemma expr_element : element R_expression (prints 0) ex_term (begins w_item).
Proof.
  intros e u R HP HB. split; [exact (print_nonempty _ _ _ HP)|]. split; [exact (print_gapfree _ _ _ _ HP)|].
  intros t. apply take_ex; [exact HP|apply begins_closer; exact HB].
Qed.

(** ** The parts of clauses *)
Lemma where_past : goes_past R_WHERE (B "WHERE ").
Proof. intros c t. eexists; eexists; split; [run_trun|split; [reflexivity|repeat constructor]]. Qed.

(** a node made from the text that was read *)
Lemma with_input : forall t x u R h, (forall p, inp = p ++ u ++ R -> takes t x u R h) -> takes t x u R h.
Proof.
  intros t x u R h H m s HH HS. apply (H (firstn (pos s) inp)); [|exact HH|exact HS]. destruct HH as [<- _]. symmetry. apply firstn_skipn.
Qed.
Lemma slice_text : forall rest_of p a b u, inp = p ++ u ++ text rest_of b -> text rest_of a = u ++ text rest_of b -> slice_real inp rest_of a b = u.
Proof.
  intros rest_of p a b u H1 H2. unfold slice_real, where_, slice. rewrite H2, H1. rewrite !app_length.
  replace (List.length p + (List.length u + List.length (text rest_of b)) - List.length (text rest_of b) -
    (List.length p + (List.length u + List.length (text rest_of b)) - (List.length u + List.length (text rest_of b)))) with (List.length u) by lia.
  replace (List.length p + (List.length u + List.length (text rest_of b)) - (List.length u + List.length (text rest_of b))) with (List.length p) by lia.
  rewrite skipn_app, skipn_all, Nat.sub_diag. cbn [app skipn]. rewrite firstn_app, firstn_all, Nat.sub_diag. cbn [firstn]. apply app_nil_r.
Qed.
Lemma node_slice : forall rest_of eff tr (tmf : (list tok -> list tok -> bytes) -> (bytes -> bytes) -> term),
  (forall sl tf (cf : list term -> list oper -> list oper * list oper) g ops, exists h pv sb hp,
     texec eff sl tf cf tr (x_node g ops) = Some (mkx [] (Some (Some (S h))) [] [] [S h] pv ops sb None false hp) /\
     nth_error hp (S h) = Some [tmf sl tf]) ->
  forall l, traced inp rest_of (fun i => performs (eff i)) tr l -> performs (HNode (tmf (slice_real inp rest_of) trim)) l.
Proof. intros rest_of eff tr tmf H. apply node_performs. intros g ops. apply H. Qed.
Lemma ltrim_keep : forall c y, ~ In c whites -> ltrim (c :: y) = c :: y.
Proof.
  intros c y H. cbn [ltrim]. destruct (is_space c) eqn:E; [|reflexivity]. exfalso. apply H. unfold is_space, in_class in E.
  apply existsb_exists in E. destruct E as (d & HD & E). apply Ascii.eqb_eq in E. subst d. exact HD.
Qed.
Lemma trim_blank : forall x, trimmed x -> trim (x ++ B " ") = x.
Proof.
  intros x ((c & y & E1 & H1) & (y' & d & E2 & H2)). unfold trim.
  replace (ltrim (x ++ B " ")) with (x ++ B " ") by (rewrite E1; cbn [app]; symmetry; apply ltrim_keep, H1).
  rewrite rev_app_distr. cbn [B list_ascii_of_string rev app ltrim]. change (is_space " "%char) with true. cbv iota.
  rewrite E2, rev_app_distr. cbn [rev app]. rewrite ltrim_keep by exact H2. cbn [rev]. rewrite rev_involutive. reflexivity.
Qed.
Definition bare_types : list asttype :=
  [T_STRING; T_INTEGER; T_PARAMETER; T_TRUE; T_FALSE; T_NULL; T_UNARY_OPERATOR; T_BINARY_OPERATOR; T_COMPARISON; T_PROPERTY_OPERATOR;
   T_SUBSCRIPT_OPERATOR; T_SLICE_OPERATOR; T_COLLECTION; T_MAP; T_FILTER; T_EXTRACT; T_ALL; T_ANY; T_SINGLE; T_NONE; T_LIST_COMPREHENSION;
   T_REDUCE; T_APPLY_OPERATOR; T_APPLY_ALL_OPERATOR; T_CASE].
Lemma bare_type : forall e, (forall v, e <> EIdent v) -> exists ty fs, ex_term e = T ty fs /\ In ty bare_types.
Proof.
  intros e H. destruct e; cbn [ex_term]; try solve [eexists; eexists; split; [reflexivity|cbn; tauto]].
  - exfalso. eapply H. reflexivity.
  - eexists; eexists; split; [reflexivity|]. match goal with q : over |- _ => destruct q end; cbn; tauto.
Qed.
Lemma bare_proj : forall e x R t, prints 0 e (x ++ B " ") -> (forall v, e <> EIdent v) -> trimmed x -> begins w_item R ->
  takes t (PRule R_return_projection) (x ++ B " ") R (HNode (return_proj (e, Some x))).
Proof.
  intros e x R t HE HN HX HB. pose proof (begins_closer _ HB) as HC. pose proof (closer_gapfree _ HC) as HG.
  assert (H2 : forall t, refuses t (PRule R_AS) R) by (apply (refuse_at col off inp R_AS w_item R); [stop_|exact HB]).
  pose proof (fun t => take_ex e _ R t HE HC) as H1. apply with_input. intros p HI.
  pose proof (print_gapfree _ _ _ R HE) as G1. pose proof (trim_blank x HX) as HT.
  unfold return_proj. cbn [fst snd opt_ident option_map]. unfold opt_ident. cbn [option_map].
  destruct (bare_type e HN) as (ty & fs & EQ & HY). rewrite EQ in *. clear EQ HE HN HX.
  set (u := x ++ B " ") in *. clearbody u.
  open_ (u ++ R) c1 r1 E1 K1; [exact G1|]. open_gap R HG.
  assert (HS : slice_real inp (many [[]; r1] R') [Ho 1 c1] [Ho 9 c] = u).
  { apply (slice_text _ p); [rewrite HI|]; text_; fold_texts; reflexivity. }
  replace (named T_IDENTIFIER x) with (T T_IDENTIFIER [TStr (trim (slice_real inp (many [[]; r1] R') [Ho 1 c1] [Ho 9 c]))]) by (rewrite HS, HT; reflexivity).
  cbn [bare_types In] in HY. repeat (destruct HY as [<-|HY]; [|]); [..|contradiction].
  all: match goal with H : forall t, ForwardLex.takes _ _ _ t (PRule R_expression) _ _ (HNode ?tm) |- _ =>
    eapply (take_of col off inp (many [[]; r1] R') (effs [HNone; HNode tm])
      (fact_tab [(R_expression, [], FTake 1 [Ho 9 c]); (R_AS, [], FFail)] []) 100 _ [Ho 1 c1] t);
      [run_trun|reflexivity| |apply (node_slice (many [[]; r1] R') (effs [HNone; HNode tm]) _
         (fun sl tf => T T_PROJECTION [TNode (Some tm); TNode (Some (T T_IDENTIFIER [TStr (tf (sl [Ho 1 c1] [Ho 9 c]))]))])); run_node|nrm_; reflexivity|nrm_; reflexivity] end.
  all: hole_ ltac:(first [apply H1|apply H2]).
Qed.
Lemma return_proj_element : element R_return_projection prints_return_proj return_proj (begins w_item).
Proof.
  intros p u R HP HB. pose proof (begins_closer _ HB) as HC. pose proof (closer_gapfree _ HC) as HG. destruct HP as [e x u HE HX|v u HE|e x HE HN HX].
  - destruct (print_first 0 e u HE) as (c1 & u1 & -> & _). split; [discriminate|]. split; [rewrite <- app_assoc; exact (print_gapfree _ _ _ _ HE)|].
    intros t. pose proof (print_gapfree _ _ _ (B "AS " ++ name_text x ++ R) HE) as G1.
    open_gap R HG.
    pose proof (fun t => take_ex e (c1 :: u1) (B "AS " ++ name_text x ++ c :: R') t HE ltac:(apply cl_word; cbn; tauto)) as H1.
    pose proof (fun t => take_name t x (c :: R') HX HG) as H2.
    eapply (take_of col off inp (many [[]; u1 ++ B "AS " ++ name_text x ++ c :: R'; x ++ B "` " ++ c :: R'] R') (effs [HNone; HNode (ex_term e); HNode (named T_IDENTIFIER x)])
      (fact_tab [(R_expression, [], FTake 1 (map Kn (B "AS ") ++ [Ho 2 "`"%char])); (R_identifier, [], FTake 2 [Ho 9 c])] []) 100 _ [Ho 1 c1] t);
      [run_trun|reflexivity| |apply node_ok; run_node|unfold name_text; text_; reflexivity|text_; reflexivity].
    hole_ ltac:(first [apply H1|apply H2]).
  - split; [exact (print_nonempty _ _ _ HE)|]. split; [exact (print_gapfree _ _ _ _ HE)|]. intros t.
    assert (H2 : forall t, refuses t (PRule R_AS) R) by (apply (refuse_at col off inp R_AS w_item R); [stop_|exact HB]).
    pose proof (fun t => take_ex _ _ R t HE HC) as H1. pose proof (print_gapfree _ _ _ R HE) as G1. cbn [ex_term] in H1.
    open_ (u ++ R) c1 r1 E1 K1; [exact G1|]. open_gap R HG.
    eapply (take_of col off inp (many [[]; r1] R') (effs [HNone; HNode (T T_IDENTIFIER [TStr v])])
      (fact_tab [(R_expression, [], FTake 1 [Ho 9 c]); (R_AS, [], FFail)] []) 100 _ [Ho 1 c1] t);
      [run_trun|reflexivity| |apply node_ok; run_node|nrm_; reflexivity|nrm_; reflexivity].
    hole_ ltac:(first [apply H1|apply H2]).
  - split; [exact (print_nonempty _ _ _ HE)|]. split; [exact (print_gapfree _ _ _ _ HE)|]. intros t. apply bare_proj; assumption.
Qed.

Lemma with_proj_element : element R_with_projection prints_with_proj with_proj (begins w_item).
Proof.
  intros p u R HP HB. destruct HP as [e x u ux HE HX]. pose proof (begins_closer _ HB) as HC. pose proof (closer_gapfree _ HC) as HG.
  split; [pose proof (print_nonempty _ _ _ HE); destruct u; [contradiction|discriminate]|].
  split; [rewrite <- app_assoc; exact (print_gapfree _ _ _ _ HE)|]. intros t.
  assert (G1 : gapfree (u ++ ux ++ R)) by exact (print_gapfree _ _ _ _ HE).
  destruct HX as [|x ux HX].
  - assert (H2 : forall t, refuses t (PRule R_AS) R) by (apply (refuse_at col off inp R_AS w_item R); [stop_|exact HB]).
    pose proof (fun t => take_ex e u R t HE HC) as H1.
    open_ (u ++ [] ++ R) c1 r1 E1 K1; [exact G1|]. open_gap R HG.
    eapply (take_of col off inp (many [[]; r1] R') (effs [HNone; HNode (ex_term e)])
      (fact_tab [(R_expression, [], FTake 1 [Ho 9 c]); (R_AS, [], FFail)] []) 100 _ [Ho 1 c1] t);
      [run_trun|reflexivity| |apply node_ok; run_node|nrm_; reflexivity|nrm_; reflexivity].
    hole_ ltac:(first [apply H1|apply H2]).
  - destruct HX as [x HX]. pose proof (fun t => take_name t x R HX HG) as H2.
    pose proof (fun t => take_ex e u (B "AS " ++ name_text x ++ R) t HE ltac:(apply cl_word; in_)) as H1.
    open_ (u ++ (B "AS " ++ name_text x) ++ R) c1 r1 E1 K1; [exact G1|]. open_gap R HG.
    eapply (take_of col off inp (many [[]; r1; x ++ B "` " ++ c :: R'] R') (effs [HNone; HNode (ex_term e); HNode (named T_IDENTIFIER x)])
      (fact_tab [(R_expression, [], FTake 1 (map Kn (B "AS ") ++ [Ho 2 "`"%char])); (R_identifier, [], FTake 2 [Ho 9 c])] []) 100 _ [Ho 1 c1] t);
      [run_trun|reflexivity| |apply node_ok; run_node|nrm_; reflexivity|nrm_; reflexivity].
    hole_ ltac:(first [apply H1|apply H2]).
Qed.
Lemma sort_element : element R_sort_item prints_sort sort_term (begins w_item).
Proof.
  intros p u R HP HB. destruct HP as [e a u w HE HX]. pose proof (begins_closer _ HB) as HC. pose proof (closer_gapfree _ HC) as HG.
  split; [pose proof (print_nonempty _ _ _ HE); destruct u; [contradiction|discriminate]|].
  split; [rewrite <- app_assoc; exact (print_gapfree _ _ _ _ HE)|]. intros t.
  assert (G1 : gapfree (u ++ w ++ R)) by exact (print_gapfree _ _ _ _ HE).
  assert (H2 : forall t, refuses t (PRule R_DESCENDING) R) by (apply (refuse_at col off inp _ w_item R); [stop_|exact HB]).
  assert (H3 : forall t, refuses t (PRule R_DESC) R) by (apply (refuse_at col off inp _ w_item R); [stop_|exact HB]).
  assert (H4 : forall t, refuses t (PRule R_ASCENDING) R) by (apply (refuse_at col off inp _ w_item R); [stop_|exact HB]).
  assert (H5 : forall t, refuses t (PRule R_ASC) R) by (apply (refuse_at col off inp _ w_item R); [stop_|exact HB]).
  assert (H1 : forall t, takes t (PRule R_expression) u (w ++ R) (HNode (ex_term e))).
  { intros t'. apply take_ex; [exact HE|]. cbn [In] in HX. repeat (destruct HX as [HX|HX]; [injection HX as <- <-; first [exact HC|apply cl_word; in_]|]). contradiction. }
  open_ (u ++ w ++ R) c1 r1 E1 K1; [exact G1|]. open_gap R HG.
  cbn [In] in HX. repeat (destruct HX as [HX|HX]; [injection HX as <- <-|]); [..|contradiction].
  all: match goal with |- takes _ _ (_ ++ ?w) _ _ =>
    eapply (take_of col off inp (many [[]; r1] R') (effs [HNone; HNode (ex_term e)])
      (fact_tab [(R_expression, [], FTake 1 (map Kn w ++ [Ho 9 c])); (R_DESCENDING, [], FFail); (R_DESC, [], FFail); (R_ASCENDING, [], FFail); (R_ASC, [], FFail)] []) 100 _ [Ho 1 c1] t);
      [run_trun|reflexivity| |apply node_ok; run_node|nrm_; reflexivity|nrm_; reflexivity] end.
  all: hole_ ltac:(first [apply H1|apply H2|apply H3|apply H4|apply H5]).
Qed.

(** a list of elements in front of [c :: R], opened *)
Lemma open_list : forall A r (P : A -> bytes -> Prop) f ws xs u R, listed P xs u -> element r P f (begins w_item) ->
  incl ws w_item -> begins ws R -> Forall (stops_at R_COMMA) ws ->
  exists u1 us tm ts, u = u1 ++ us /\ map f xs = tm :: ts /\ gapfree (u1 ++ us ++ R) /\ gapfree (us ++ R) /\
    (forall t, takes t (PRule r) u1 (us ++ R) (HNode tm)) /\
    (forall n k t, In (n, k) [(1, 0); (3, 0); (4, 1); (4, 2); (2, 1)] -> takes t (PStar (comma_of k r)) us R (HGrow n [k] ts)).
Proof.
  intros A r P f ws xs u R HL HE HI HB HS. destruct HL as [x u xs us HP HC].
  assert (HB' : begins w_item R) by exact (begins_more _ _ _ HB HI).
  assert (HO : begins w_item (us ++ R)).
  { destruct HC; [exact HB'|]. exists (B ","), (B " " ++ u0 ++ us ++ R). split; [in_|]. rewrite <- !app_assoc. reflexivity. }
  destruct (HE x u (us ++ R) HP HO) as (E1 & E2 & E3).
  exists u, us, (f x), (map f xs). split; [reflexivity|]. split; [reflexivity|]. split; [exact E2|].
  split; [exact (closer_gapfree _ (begins_closer _ HO))|]. split; [exact E3|]. intros n k t HN.
  eapply (commas_take col off inp); [exact HN|exact HE| |exact HC|exact HB'| |].
  - intros R'. exists (B ","), (B " " ++ R'). split; [in_|reflexivity].
  - apply gapfree_nonempty, closer_gapfree, begins_closer, HB'.
  - intros t'. eapply (refuse_at col off inp); [exact HS|exact HB].
Qed.
Ltac list_rule t kw r c1 r1 c5 r5 c R' tm1 ts :=
  eapply (take_of col off inp (many [[]; r1; []; []; []; r5] R') (effs [HNone; HNode tm1; HNone; HNone; HNone; HGrow 1 [0] ts])
    (fact_tab [(r, [1], FTake 1 [Ho 5 c5])] [([5], FTake 5 [Ho 9 c])]) 200 _ (map Kn kw ++ [Ho 1 c1]) t);
  [run_trun|reflexivity| |apply node_ok; run_node|nrm_; reflexivity|nrm_; reflexivity].

Lemma take_order : forall o u R t, listed prints_sort o u -> begins w_skip R ->
  takes t (PRule R_order_by) (B "ORDER BY " ++ u) R (HNode (T T_ORDER_BY [TList (map sort_term o)])).
Proof.
  intros o u R t HL HB.
  destruct (open_list _ R_sort_item _ _ w_skip _ _ R HL sort_element) as (u1 & us & tm & ts & -> & -> & G1 & G2 & H1 & H2);
    [i_|exact HB|stop_|].
  assert (HG : gapfree R) by (eapply after_gap; [exact HB|i_]).
  rewrite <- (app_nil_r ts). specialize (H2 1 0).
  open_ (u1 ++ us ++ R) c1 r1 E1 K1; [exact G1|]. open_ (us ++ R) c5 r5 E5 K5; [exact G2|]. open_gap R HG.
  list_rule t (B "ORDER BY ") R_sort_item c1 r1 c5 r5 c R' tm ts.
  hole_ ltac:(first [apply H1|apply H2; in_]).
Qed.

Lemma take_skip : forall e u R t, prints 0 e u -> closer R -> takes t (PRule R_skip) (B "SKIP " ++ u) R (HNode (ex_term e)).
Proof.
  intros e u R t HP HC. pose proof (fun t => take_ex e u R t HP HC) as H1. pose proof (closer_gapfree _ HC) as HG.
  open_ (u ++ R) c1 r1 E1 K1; [exact (print_gapfree _ _ _ _ HP)|]. open_gap R HG.
  eapply (take_of col off inp (many [[]; r1] R') (effs [HNone; HNode (ex_term e)]) (fact_tab [(R_expression, [], FTake 1 [Ho 9 c])] []) 100 _ (map Kn (B "SKIP ") ++ [Ho 1 c1]) t);
    [run_trun|reflexivity| |apply node_ok; run_node|nrm_; reflexivity|nrm_; reflexivity].
  hole_ ltac:(apply H1).
Qed.
Lemma take_limit : forall e u R t, prints 0 e u -> closer R -> takes t (PRule R_limit) (B "LIMIT " ++ u) R (HNode (ex_term e)).
Proof.
  intros e u R t HP HC. pose proof (fun t => take_ex e u R t HP HC) as H1. pose proof (closer_gapfree _ HC) as HG.
  open_ (u ++ R) c1 r1 E1 K1; [exact (print_gapfree _ _ _ _ HP)|]. open_gap R HG.
  eapply (take_of col off inp (many [[]; r1] R') (effs [HNone; HNode (ex_term e)]) (fact_tab [(R_expression, [], FTake 1 [Ho 9 c])] []) 100 _ (map Kn (B "LIMIT ") ++ [Ho 1 c1]) t);
    [run_trun|reflexivity| |apply node_ok; run_node|nrm_; reflexivity|nrm_; reflexivity].
  hole_ ltac:(apply H1).
Qed.

(** what can be left out: its text, and the node there is *)
Definition opt_takes (r : rule) (uo R : bytes) (oo : option term) : Prop :=
  match oo with
  | Some tm => forall t, takes t (PRule r) uo R (HNode tm)
  | None => uo = [] /\ forall t, refuses t (PRule r) R
  end.
Lemma opt_order : forall o uo R, prints_order o uo -> begins w_skip R ->
  exists oo, order_term o = TNode oo /\ opt_takes R_order_by uo R oo /\ begins w_order (uo ++ R).
Proof.
  intros o uo R H HB. destruct H as [|o u H].
  - exists None. split; [reflexivity|]. split; [split; [reflexivity|]|(eapply begins_more; [exact HB|i_])].
    eapply refuse_at; [|exact HB]. stop_.
  - exists (Some (T T_ORDER_BY [TList (map sort_term o)])). split; [destruct H; reflexivity|]. split; [intros t; apply take_order; assumption|].
    exists (B "ORDER "), (B "BY " ++ u ++ R). split; [in_|rewrite <- !app_assoc; reflexivity].
Qed.
Lemma opt_skip : forall s us R, maybe (B "SKIP ") (prints 0) s us -> begins w_limit R ->
  opt_takes R_skip us R (option_map ex_term s) /\ begins w_skip (us ++ R).
Proof.
  intros s us R H HB. destruct H as [|e u H].
  - split; [split; [reflexivity|]|(eapply begins_more; [exact HB|i_])]. eapply refuse_at; [|exact HB]. stop_.
  - split; [|rewrite <- app_assoc; apply begins_with; in_]. intros t. apply take_skip; [exact H|].
    apply begins_closer. (eapply begins_more; [exact HB|i_]).
Qed.
Lemma opt_limit : forall s us R, maybe (B "LIMIT ") (prints 0) s us -> begins w_where R ->
  opt_takes R_limit us R (option_map ex_term s) /\ begins w_limit (us ++ R).
Proof.
  intros s us R H HB. destruct H as [|e u H].
  - split; [split; [reflexivity|]|(eapply begins_more; [exact HB|i_])]. eapply refuse_at; [|exact HB]. stop_.
  - split; [|rewrite <- app_assoc; apply begins_with; in_]. intros t. apply take_limit; [exact H|].
    apply begins_closer. (eapply begins_more; [exact HB|i_]).
Qed.
(** WHERE, and the condition *)
Lemma opt_where : forall s us R, maybe (B "WHERE ") (prints 0) s us -> begins w_after R ->
  begins w_where (us ++ R) /\
  match s with
  | Some e => exists u, us = B "WHERE " ++ u /\ gapfree (u ++ R) /\
      (forall t, takes t (PRule R_WHERE) (B "WHERE ") (u ++ R) HNone) /\ (forall t, takes t (PRule R_expression) u R (HNode (ex_term e)))
  | None => us = [] /\ forall t, refuses t (PRule R_WHERE) R
  end.
Proof.
  intros s us R H HB. destruct H as [|e u H].
  - split; [(eapply begins_more; [exact HB|i_])|]. split; [reflexivity|]. eapply refuse_at; [|exact HB]. stop_.
  - split; [rewrite <- app_assoc; apply begins_with; in_|]. exists u. split; [reflexivity|].
    pose proof (print_gapfree _ _ _ R H) as HG. split; [exact HG|]. split; intros t.
    + apply word_past; [exact where_past|exact HG].
    + apply take_ex; [exact H|]. apply begins_closer. (eapply begins_more; [exact HB|i_]).
Qed.

Lemma take_more_return : forall ps us R t, commas prints_return_proj ps us -> begins w_order R ->
  takes t (PRule R_additional_return_projections) us R (HGrow 4 [] (map return_proj ps)).
Proof.
  intros ps us R t H HB. assert (HB' : begins w_item R) by (eapply begins_more; [exact HB|i_]).
  assert (HG : gapfree R) by (eapply after_gap; [exact HB|i_]).
  assert (H1 : forall t, takes t (PStar (comma_of 0 R_return_projection)) us R (HGrow 1 [0] (map return_proj ps))).
  { eapply commas_take; [in_|exact return_proj_element| |exact H|exact HB'|exact (gapfree_nonempty _ HG)|].
    - intros R'. exists (B ","), (B " " ++ R'). split; [in_|reflexivity].
    - eapply refuse_at; [|exact HB]. stop_. }
  rewrite <- (app_nil_r (map return_proj ps)).
  assert (HU : gapfree (us ++ R)).
  { destruct H; [exact HG|]. left. eexists; eexists; split; [reflexivity|cbn [In]; intuition discriminate]. }
  open_ (us ++ R) c1 r1 E1 K1; [exact HU|]. open_gap R HG.
  eapply (take_of col off inp (many [[]; r1] R') (effs [HNone; HGrow 1 [0] (map return_proj ps)]) (fact_tab [] [([1], FTake 1 [Ho 9 c])]) 100 _ [Ho 1 c1] t);
    [run_trun|reflexivity| |apply grow_ok; [reflexivity|run_grow]|nrm_; reflexivity|nrm_; reflexivity].
  hole_ ltac:(apply H1).
Qed.
Lemma take_more_with : forall ps us R t, commas prints_with_proj ps us -> begins w_order R ->
  takes t (PRule R_additional_with_projections) us R (HGrow 5 [] (map with_proj ps)).
Proof.
  intros ps us R t H HB. assert (HB' : begins w_item R) by (eapply begins_more; [exact HB|i_]).
  assert (HG : gapfree R) by (eapply after_gap; [exact HB|i_]).
  assert (H1 : forall t, takes t (PStar (comma_of 0 R_with_projection)) us R (HGrow 1 [0] (map with_proj ps))).
  { eapply commas_take; [in_|exact with_proj_element| |exact H|exact HB'|exact (gapfree_nonempty _ HG)|].
    - intros R'. exists (B ","), (B " " ++ R'). split; [in_|reflexivity].
    - eapply refuse_at; [|exact HB]. stop_. }
  rewrite <- (app_nil_r (map with_proj ps)).
  assert (HU : gapfree (us ++ R)).
  { destruct H; [exact HG|]. left. eexists; eexists; split; [reflexivity|cbn [In]; intuition discriminate]. }
  open_ (us ++ R) c1 r1 E1 K1; [exact HU|]. open_gap R HG.
  eapply (take_of col off inp (many [[]; r1] R') (effs [HNone; HGrow 1 [0] (map with_proj ps)]) (fact_tab [] [([1], FTake 1 [Ho 9 c])]) 100 _ [Ho 1 c1] t);
    [run_trun|reflexivity| |apply grow_ok; [reflexivity|run_grow]|nrm_; reflexivity|nrm_; reflexivity].
  hole_ ltac:(apply H1).
Qed.

(** the projections: the first, if there is one, and the others *)
Inductive projs_ok (r more : rule) (n : nat) (R : bytes) : bool -> bytes -> list term -> Prop :=
| po_star : forall us ts, (forall t, takes t (PRule more) us R (HGrow n [] ts)) -> gapfree (us ++ R) -> projs_ok r more n R true (B "* " ++ us) ts
| po_list : forall u1 us tm ts, (forall t, takes t (PRule r) u1 (us ++ R) (HNode tm)) -> (forall t, takes t (PRule more) us R (HGrow n [] ts)) ->
    (forall t x, In x [R_DISTINCT; R_STAR] -> refuses t (PRule x) (u1 ++ us ++ R)) ->
    gapfree (u1 ++ us ++ R) -> gapfree (us ++ R) -> projs_ok r more n R false (u1 ++ us) (tm :: ts).
Lemma no_distinct : forall e u R t x, prints 0 e u -> In x [R_DISTINCT; R_STAR] -> refuses t (PRule x) (u ++ R).
Proof.
  intros e u R t x HP HX. destruct (print_first _ _ _ HP) as (c & u' & -> & HC). cbn [app]. apply refuse_first; [|exact HC].
  destruct HX as [<-|[<-|[]]]; in_.
Qed.
Lemma projs_return : forall star ps u R, prints_projs prints_return_proj star ps u -> begins w_order R ->
  projs_ok R_return_projection R_additional_return_projections 4 R star u (map return_proj ps).
Proof.
  intros star ps u R H HB. assert (HB' : begins w_item R) by (eapply begins_more; [exact HB|i_]).
  assert (HG : gapfree R) by (eapply after_gap; [exact HB|i_]). destruct H as [ps u H|ps u H].
  - apply po_star; [intros t; apply take_more_return; assumption|].
    destruct H; [exact HG|]. left. eexists; eexists; split; [reflexivity|cbn [In]; intuition discriminate].
  - destruct H as [x u xs us HP HC]. assert (HO : begins w_item (us ++ R)).
    { destruct HC; [exact HB'|]. exists (B ","), (B " " ++ u0 ++ us ++ R). split; [in_|]. rewrite <- !app_assoc. reflexivity. }
    destruct (return_proj_element x u (us ++ R) HP HO) as (E1 & E2 & E3). cbn [map].
    apply po_list; [exact E3|intros t; apply take_more_return; assumption| |exact E2|exact (closer_gapfree _ (begins_closer _ HO))].
    intros t y HY. destruct HP; [rewrite <- !app_assoc| |]; eapply no_distinct; eassumption.
Qed.
Lemma projs_with : forall star ps u R, prints_projs prints_with_proj star ps u -> begins w_order R ->
  projs_ok R_with_projection R_additional_with_projections 5 R star u (map with_proj ps).
Proof.
  intros star ps u R H HB. assert (HB' : begins w_item R) by (eapply begins_more; [exact HB|i_]).
  assert (HG : gapfree R) by (eapply after_gap; [exact HB|i_]). destruct H as [ps u H|ps u H].
  - apply po_star; [intros t; apply take_more_with; assumption|].
    destruct H; [exact HG|]. left. eexists; eexists; split; [reflexivity|cbn [In]; intuition discriminate].
  - destruct H as [x u xs us HP HC]. assert (HO : begins w_item (us ++ R)).
    { destruct HC; [exact HB'|]. exists (B ","), (B " " ++ u0 ++ us ++ R). split; [in_|]. rewrite <- !app_assoc. reflexivity. }
    destruct (with_proj_element x u (us ++ R) HP HO) as (E1 & E2 & E3). cbn [map].
    apply po_list; [exact E3|intros t; apply take_more_with; assumption| |exact E2|exact (closer_gapfree _ (begins_closer _ HO))].
    intros t y HY. destruct HP. rewrite <- !app_assoc. eapply no_distinct; eassumption.
Qed.

Definition opt_fact (i : nat) (w : list tok) (oo : option term) : verdict := match oo with Some _ => FTake i w | None => FFail end.
Definition opt_eff (oo : option term) : heff := match oo with Some tm => HNode tm | None => HNone end.

Lemma take_return : forall d star ps o s l u uo us ul R t, prints_projs prints_return_proj star ps u -> prints_order o uo ->
  maybe (B "SKIP ") (prints 0) s us -> maybe (B "LIMIT ") (prints 0) l ul -> begins w_after R ->
  takes t (PRule R_clause) (B "RETURN " ++ distinct_text d ++ u ++ uo ++ us ++ ul) R (HNode (clause_term (Return d star ps o s l))).
Proof.
  intros d star ps o s l u uo us ul R t HP HO HS HL HB.
  assert (HB1 : begins w_where R) by (eapply begins_more; [exact HB|i_]).
  destruct (opt_limit _ _ _ HL HB1) as [L1 L2]. destruct (opt_skip _ _ _ HS L2) as [S1 S2].
  destruct (opt_order _ _ _ HO S2) as (oo & O0 & O1 & O2). pose proof (projs_return _ _ _ _ HP O2) as P1.
  cbn [clause_term]. rewrite O0. unfold opt_ex.
  assert (G3 : gapfree (uo ++ us ++ ul ++ R)) by (eapply after_gap; [exact O2|i_]).
  assert (G4 : gapfree (us ++ ul ++ R)) by (eapply after_gap; [exact S2|i_]).
  assert (G5 : gapfree (ul ++ R)) by (eapply after_gap; [exact L2|i_]).
  assert (HG : gapfree R) by (eapply after_gap; [exact HB|i_]).
  generalize dependent (option_map ex_term s). generalize dependent (option_map ex_term l). generalize dependent (map return_proj ps).
  intros ts P1 ol L1 os S1. clear HP HO HS HL O0 O2 L2 S2 HB HB1.
  destruct P1 as [uu ts H2 G2|u1 uu tm ts H1 H2 HD G1 G2]; rewrite <- (app_nil_r ts).
  - open_ (uu ++ uo ++ us ++ ul ++ R) c2 r2 E2 K2; [exact G2|]. open_ (uo ++ us ++ ul ++ R) c3 r3 E3 K3; [exact G3|].
    open_ (us ++ ul ++ R) c4 r4 E4 K4; [exact G4|]. open_ (ul ++ R) c5 r5 E5 K5; [exact G5|]. open_gap R HG.
    destruct d, oo as [to|], os as [ts'|], ol as [tl'|]; cbn [opt_takes] in O1, S1, L1;
      try (destruct O1 as [-> O1]); try (destruct S1 as [-> S1]); try (destruct L1 as [-> L1]).
    all: cbn [distinct_text]; match goal with |- takes _ _ (_ ++ ?dt ++ _) _ (HNode (T _ [_; _; _; TNode ?oo; TNode ?os; TNode ?ol])) =>
      eapply (take_of col off inp (many [[]; []; r2; r3; r4; r5] R') (effs [HNone; HNone; HGrow 4 [] ts; opt_eff oo; opt_eff os; opt_eff ol])
      (fact_tab [(R_additional_return_projections, [], FTake 2 [Ho 3 c3]); (R_order_by, [], opt_fact 3 [Ho 4 c4] oo);
         (R_skip, [], opt_fact 4 [Ho 5 c5] os); (R_limit, [], opt_fact 5 [Ho 9 c] ol)] []) 200 _ (map Kn (B "RETURN " ++ dt ++ B "* ") ++ [Ho 2 c2]) t) end;
      [run_trun|reflexivity| |apply node_ok; run_node|nrm_; reflexivity|nrm_; reflexivity].
    all: hole_ ltac:(first [apply H2|apply O1|apply S1|apply L1]).
  - open_ (u1 ++ uu ++ uo ++ us ++ ul ++ R) c1 r1 E1 K1; [exact G1|].
    open_ (uu ++ uo ++ us ++ ul ++ R) c2 r2 E2 K2; [exact G2|]. open_ (uo ++ us ++ ul ++ R) c3 r3 E3 K3; [exact G3|].
    open_ (us ++ ul ++ R) c4 r4 E4 K4; [exact G4|]. open_ (ul ++ R) c5 r5 E5 K5; [exact G5|]. open_gap R HG.
    destruct d, oo as [to|], os as [ts'|], ol as [tl'|]; cbn [opt_takes] in O1, S1, L1;
      try (destruct O1 as [-> O1]); try (destruct S1 as [-> S1]); try (destruct L1 as [-> L1]).
    all: cbn [distinct_text]; match goal with |- takes _ _ (_ ++ ?dt ++ _) _ (HNode (T _ [_; _; _; TNode ?oo; TNode ?os; TNode ?ol])) =>
      eapply (take_of col off inp (many [[]; r1; r2; r3; r4; r5] R') (effs [HNone; HNode tm; HGrow 4 [] ts; opt_eff oo; opt_eff os; opt_eff ol])
      (fact_tab [(R_return_projection, [], FTake 1 [Ho 2 c2]); (R_DISTINCT, [], FFail); (R_STAR, [], FFail);
         (R_additional_return_projections, [], FTake 2 [Ho 3 c3]); (R_order_by, [], opt_fact 3 [Ho 4 c4] oo);
         (R_skip, [], opt_fact 4 [Ho 5 c5] os); (R_limit, [], opt_fact 5 [Ho 9 c] ol)] []) 200 _ (map Kn (B "RETURN " ++ dt) ++ [Ho 1 c1]) t) end;
      [run_trun|reflexivity| |apply node_ok; run_node|nrm_; reflexivity|nrm_; reflexivity].
    all: hole_ ltac:(first [apply H1|apply H2|apply HD; solve [in_]|apply O1|apply S1|apply L1]).
Qed.

Lemma take_with : forall d star ps o s l w u uo us ul uw R t, prints_projs prints_with_proj star ps u -> prints_order o uo ->
  maybe (B "SKIP ") (prints 0) s us -> maybe (B "LIMIT ") (prints 0) l ul -> maybe (B "WHERE ") (prints 0) w uw -> begins w_after R ->
  takes t (PRule R_clause) (B "WITH " ++ distinct_text d ++ u ++ uo ++ us ++ ul ++ uw) R (HNode (clause_term (With d star ps o s l w))).
Proof.
  intros d star ps o s l w u uo us ul uw R t HP HO HS HL HW HB.
  destruct (opt_where _ _ _ HW HB) as [W2 W1].
  destruct (opt_limit _ _ _ HL W2) as [L1 L2]. destruct (opt_skip _ _ _ HS L2) as [S1 S2].
  destruct (opt_order _ _ _ HO S2) as (oo & O0 & O1 & O2). pose proof (projs_with _ _ _ _ HP O2) as P1.
  cbn [clause_term]. rewrite O0. unfold opt_ex.
  assert (G3 : gapfree (uo ++ us ++ ul ++ uw ++ R)) by (eapply after_gap; [exact O2|i_]).
  assert (G4 : gapfree (us ++ ul ++ uw ++ R)) by (eapply after_gap; [exact S2|i_]).
  assert (G5 : gapfree (ul ++ uw ++ R)) by (eapply after_gap; [exact L2|i_]).
  assert (G6 : gapfree (uw ++ R)) by (eapply after_gap; [exact W2|i_]).
  assert (HG : gapfree R) by (eapply after_gap; [exact HB|i_]).
  generalize dependent (option_map ex_term s). generalize dependent (option_map ex_term l). generalize dependent (map with_proj ps).
  intros ts P1 ol L1 os S1. clear HP HO HS HL O0 O2 L2 S2 HB W2 HW.
  destruct P1 as [uu ts H2 G2|u1 uu tm ts H1 H2 HD G1 G2]; rewrite <- (app_nil_r ts).
  - open_ (uu ++ uo ++ us ++ ul ++ uw ++ R) c2 r2 E2 K2; [exact G2|]. open_ (uo ++ us ++ ul ++ uw ++ R) c3 r3 E3 K3; [exact G3|].
    open_ (us ++ ul ++ uw ++ R) c4 r4 E4 K4; [exact G4|]. open_ (ul ++ uw ++ R) c5 r5 E5 K5; [exact G5|].
    open_ (uw ++ R) c6 r6 E6 K6; [exact G6|].
    destruct w as [w|]; cbn [option_map] in *.
    + destruct W1 as (v & -> & G7 & W1 & W3). open_ (v ++ R) c7 r7 E7 K7; [exact G7|]. open_gap R HG.
      destruct d, oo as [to|], os as [ts'|], ol as [tl'|]; cbn [opt_takes] in O1, S1, L1;
        try (destruct O1 as [-> O1]); try (destruct S1 as [-> S1]); try (destruct L1 as [-> L1]).
      all: cbn [distinct_text]; match goal with |- takes _ _ (_ ++ ?dt ++ _) _ (HNode (T _ [_; _; _; TNode ?oo; TNode ?os; TNode ?ol; _])) =>
        eapply (take_of col off inp (many [[]; []; r2; r3; r4; r5; r6; r7] R')
          (effs [HNone; HNone; HGrow 5 [] ts; opt_eff oo; opt_eff os; opt_eff ol; HNone; HNode (ex_term w)])
        (fact_tab [(R_additional_with_projections, [], FTake 2 [Ho 3 c3]); (R_order_by, [], opt_fact 3 [Ho 4 c4] oo);
           (R_skip, [], opt_fact 4 [Ho 5 c5] os); (R_limit, [], opt_fact 5 [Ho 6 c6] ol); (R_WHERE, [], FTake 6 [Ho 7 c7]); (R_expression, [], FTake 7 [Ho 9 c])] [])
           200 _ (map Kn (B "WITH " ++ dt ++ B "* ") ++ [Ho 2 c2]) t) end;
        [run_trun|reflexivity| |apply node_ok; run_node|nrm_; reflexivity|nrm_; reflexivity].
      all: hole_ ltac:(first [apply H2|apply O1|apply S1|apply L1|apply W1|apply W3]).
    + destruct W1 as (-> & W1). open_gap R HG.
      destruct d, oo as [to|], os as [ts'|], ol as [tl'|]; cbn [opt_takes] in O1, S1, L1;
        try (destruct O1 as [-> O1]); try (destruct S1 as [-> S1]); try (destruct L1 as [-> L1]).
      all: cbn [distinct_text]; match goal with |- takes _ _ (_ ++ ?dt ++ _) _ (HNode (T _ [_; _; _; TNode ?oo; TNode ?os; TNode ?ol; _])) =>
        eapply (take_of col off inp (many [[]; []; r2; r3; r4; r5; r6] R')
          (effs [HNone; HNone; HGrow 5 [] ts; opt_eff oo; opt_eff os; opt_eff ol])
        (fact_tab [(R_additional_with_projections, [], FTake 2 [Ho 3 c3]); (R_order_by, [], opt_fact 3 [Ho 4 c4] oo);
           (R_skip, [], opt_fact 4 [Ho 5 c5] os); (R_limit, [], opt_fact 5 [Ho 6 c6] ol); (R_WHERE, [], FFail)] [])
           200 _ (map Kn (B "WITH " ++ dt ++ B "* ") ++ [Ho 2 c2]) t) end;
        [run_trun|reflexivity| |apply node_ok; run_node|nrm_; reflexivity|nrm_; reflexivity].
      all: hole_ ltac:(first [apply H2|apply O1|apply S1|apply L1|apply W1]).
  - open_ (u1 ++ uu ++ uo ++ us ++ ul ++ uw ++ R) c1 r1 E1 K1; [exact G1|].
    open_ (uu ++ uo ++ us ++ ul ++ uw ++ R) c2 r2 E2 K2; [exact G2|]. open_ (uo ++ us ++ ul ++ uw ++ R) c3 r3 E3 K3; [exact G3|].
    open_ (us ++ ul ++ uw ++ R) c4 r4 E4 K4; [exact G4|]. open_ (ul ++ uw ++ R) c5 r5 E5 K5; [exact G5|].
    open_ (uw ++ R) c6 r6 E6 K6; [exact G6|].
    destruct w as [w|]; cbn [option_map] in *.
    + destruct W1 as (v & -> & G7 & W1 & W3). open_ (v ++ R) c7 r7 E7 K7; [exact G7|]. open_gap R HG.
      destruct d, oo as [to|], os as [ts'|], ol as [tl'|]; cbn [opt_takes] in O1, S1, L1;
        try (destruct O1 as [-> O1]); try (destruct S1 as [-> S1]); try (destruct L1 as [-> L1]).
      all: cbn [distinct_text]; match goal with |- takes _ _ (_ ++ ?dt ++ _) _ (HNode (T _ [_; _; _; TNode ?oo; TNode ?os; TNode ?ol; _])) =>
        eapply (take_of col off inp (many [[]; r1; r2; r3; r4; r5; r6; r7] R')
          (effs [HNone; HNode tm; HGrow 5 [] ts; opt_eff oo; opt_eff os; opt_eff ol; HNone; HNode (ex_term w)])
        (fact_tab [(R_with_projection, [], FTake 1 [Ho 2 c2]); (R_DISTINCT, [], FFail); (R_STAR, [], FFail);
           (R_additional_with_projections, [], FTake 2 [Ho 3 c3]); (R_order_by, [], opt_fact 3 [Ho 4 c4] oo);
           (R_skip, [], opt_fact 4 [Ho 5 c5] os); (R_limit, [], opt_fact 5 [Ho 6 c6] ol); (R_WHERE, [], FTake 6 [Ho 7 c7]); (R_expression, [], FTake 7 [Ho 9 c])] [])
           200 _ (map Kn (B "WITH " ++ dt) ++ [Ho 1 c1]) t) end;
        [run_trun|reflexivity| |apply node_ok; run_node|nrm_; reflexivity|nrm_; reflexivity].
      all: hole_ ltac:(first [apply H1|apply H2|apply HD; solve [in_]|apply O1|apply S1|apply L1|apply W1|apply W3]).
    + destruct W1 as (-> & W1). open_gap R HG.
      destruct d, oo as [to|], os as [ts'|], ol as [tl'|]; cbn [opt_takes] in O1, S1, L1;
        try (destruct O1 as [-> O1]); try (destruct S1 as [-> S1]); try (destruct L1 as [-> L1]).
      all: cbn [distinct_text]; match goal with |- takes _ _ (_ ++ ?dt ++ _) _ (HNode (T _ [_; _; _; TNode ?oo; TNode ?os; TNode ?ol; _])) =>
        eapply (take_of col off inp (many [[]; r1; r2; r3; r4; r5; r6] R')
          (effs [HNone; HNode tm; HGrow 5 [] ts; opt_eff oo; opt_eff os; opt_eff ol])
        (fact_tab [(R_with_projection, [], FTake 1 [Ho 2 c2]); (R_DISTINCT, [], FFail); (R_STAR, [], FFail);
           (R_additional_with_projections, [], FTake 2 [Ho 3 c3]); (R_order_by, [], opt_fact 3 [Ho 4 c4] oo);
           (R_skip, [], opt_fact 4 [Ho 5 c5] os); (R_limit, [], opt_fact 5 [Ho 6 c6] ol); (R_WHERE, [], FFail)] [])
           200 _ (map Kn (B "WITH " ++ dt) ++ [Ho 1 c1]) t) end;
        [run_trun|reflexivity| |apply node_ok; run_node|nrm_; reflexivity|nrm_; reflexivity].
      all: hole_ ltac:(first [apply H1|apply H2|apply HD; solve [in_]|apply O1|apply S1|apply L1|apply W1]).
Qed.

Lemma take_unwind : forall e x u R t, prints 0 e u -> plain_name x -> begins w_after R ->
  takes t (PRule R_clause) (B "UNWIND " ++ u ++ B "AS " ++ name_text x) R (HNode (clause_term (Unwind e x))).
Proof.
  intros e x u R t HE HX HB. assert (HG : gapfree R) by (eapply after_gap; [exact HB|i_]).
  pose proof (fun t => take_name t x R HX HG) as H2.
  pose proof (fun t => take_ex e u (B "AS " ++ name_text x ++ R) t HE ltac:(apply cl_word; in_)) as H1.
  open_ (u ++ B "AS " ++ name_text x ++ R) c1 r1 E1 K1; [exact (print_gapfree _ _ _ _ HE)|]. open_gap R HG.
  eapply (take_of col off inp (many [[]; r1; x ++ B "` " ++ c :: R'] R') (effs [HNone; HNode (ex_term e); HNode (named T_IDENTIFIER x)])
    (fact_tab [(R_expression, [], FTake 1 (map Kn (B "AS ") ++ [Ho 2 "`"%char])); (R_identifier, [], FTake 2 [Ho 9 c])] []) 200 _ (map Kn (B "UNWIND ") ++ [Ho 1 c1]) t);
    [run_trun|reflexivity| |apply node_ok; run_node|nrm_; reflexivity|nrm_; reflexivity].
  hole_ ltac:(first [apply H1|apply H2]).
Qed.
Lemma take_delete : forall (d : bool) es u R t, listed (prints 0) es u -> begins w_after R ->
  takes t (PRule R_clause) ((if d then B "DETACH DELETE " else B "DELETE ") ++ u) R (HNode (clause_term (Delete d es))).
Proof.
  intros d es u R t HL HB.
  destruct (open_list _ R_expression _ _ w_after _ _ R HL expr_element) as (u1 & us & tm & ts & -> & HM & G1 & G2 & H1 & H2);
    [i_|exact HB|stop_|].
  assert (HG : gapfree R) by (eapply after_gap; [exact HB|i_]).
  cbn [clause_term]. rewrite HM. rewrite <- (app_nil_r ts). specialize (H2 1 0).
  open_ (u1 ++ us ++ R) c1 r1 E1 K1; [exact G1|]. open_ (us ++ R) c5 r5 E5 K5; [exact G2|]. open_gap R HG.
  destruct d; [list_rule t (B "DETACH DELETE ") R_expression c1 r1 c5 r5 c R' tm ts|list_rule t (B "DELETE ") R_expression c1 r1 c5 r5 c R' tm ts].
  all: hole_ ltac:(first [apply H1|apply H2; in_]).
Qed.
Lemma take_union : forall (all : bool) R t, begins w_after R ->
  takes t (PRule R_clause) (if all then B "UNION ALL " else B "UNION ") R (HNode (clause_term (Union all))).
Proof.
  intros all R t HB. assert (HG : gapfree R) by (eapply after_gap; [exact HB|i_]).
  assert (H1 : forall t, refuses t (PRule R_ALL) R) by (eapply refuse_at; [|exact HB]; stop_).
  open_gap R HG. destruct all.
  - eapply (take_of col off inp (many [] R') (effs []) (fact_tab [] []) 200 _ (map Kn (B "UNION ALL ") ++ [Ho 9 c]) t);
    [run_trun|reflexivity| |apply node_ok; run_node|nrm_; reflexivity|nrm_; reflexivity]. hole_ fail.
  - eapply (take_of col off inp (many [] R') (effs []) (fact_tab [(R_ALL, [], FFail)] []) 200 _ (map Kn (B "UNION ") ++ [Ho 9 c]) t);
    [run_trun|reflexivity| |apply node_ok; run_node|nrm_; reflexivity|nrm_; reflexivity]. hole_ ltac:(apply H1).
Qed.
End Clause.
