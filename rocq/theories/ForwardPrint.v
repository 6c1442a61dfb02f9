(** * Every text of an expression is taken, with its tree *)
From Coq Require Import List Bool Arith Ascii String ZArith Lia Permutation.
From Verif Require Import Peg PegProofs PegThunks QuickModel QuickSpec QuickProofs CypherSyntax CypherGrammar OperModel ErrModel
  CypherMatch AstTypes AstModel CypherBuild CypherExec CypherParse CypherRun CypherRound CypherSpec
  NodeFacts NodeHeld FlowSound FlowRun SafeProofs TraceSpec TraceProofs LexSpec LexProofs TermSpec Forward ForwardExec ForwardLex
  ForwardStep ForwardAtom ForwardExpr ForwardName ForwardNum ForwardPat ExprSpec ForwardForm.
Import ListNotations.
Open Scope peg_scope.
Opaque parse_one cfuel.
Strategy expand [crun].

(** ** The operators of the specification are those of the model *)
Lemma level_oprec : forall o, level o = oprec o. Proof. destruct o; reflexivity. Qed.
Lemma binary_infix : forall o, In o binaries -> In (o, op_text o) infix_ops.
Proof. intros o H. unfold binaries in H. cbn [In] in H. repeat (destruct H as [<-|H]; [cbn; tauto|]). contradiction. Qed.
Lemma comparison_op : forall o, In o comparisons -> In (o, op_text o) comparison_ops.
Proof. intros o H. unfold comparisons in H. cbn [In] in H. repeat (destruct H as [<-|H]; [cbn; tauto|]). contradiction. Qed.
Lemma postfix_op : forall o, In o postfixes -> In (o, op_text o) postfix_ops.
Proof. intros o H. unfold postfixes in H. cbn [In] in H. repeat (destruct H as [<-|H]; [cbn; tauto|]). contradiction. Qed.
Lemma prefix_op : forall o, In o prefixes -> is_prefix o = true /\ op_text o = prefix_text o /\ next_prec o = level o.
Proof. intros o H. unfold prefixes in H. cbn [In] in H. repeat (destruct H as [<-|H]; [repeat split; reflexivity|]). contradiction. Qed.
Lemma right_next : forall o, In o binaries -> right_level o = next_prec o /\ right_level o <= 12.
Proof. intros o H. unfold binaries in H. cbn [In] in H. repeat (destruct H as [<-|H]; [split; [reflexivity|cbn; lia]|]). contradiction. Qed.
Lemma chain_next : forall o, In o comparisons -> next_prec o = 7 /\ oprec o = 6.
Proof. intros o H. unfold comparisons in H. cbn [In] in H. repeat (destruct H as [<-|H]; [split; reflexivity|]). contradiction. Qed.

(** ** The start of a text *)
Definition tail1 (s : bytes) : Prop := exists c u, s = c :: u /\ In c op_chars /\ gapfree (c :: u).
Definition wordy (e : ex) (u : bytes) : Prop :=
  (exists v, e = EIdent v /\ u = bq v ++ B " " /\ ~ In "`"%char v) \/ (In e [ETrue; EFalse; ENull] /\ In u words).
Definition starts (e : ex) (u : bytes) : Prop :=
  lead u \/ wordy e u \/ (exists v, e = EParam v /\ u = B "$" ++ bq v ++ B " " /\ ~ In "`"%char v) \/
  (exists p, e = EUn OP_NOT (EParam p) /\ u = B "NOT $" ++ bq p ++ B " " /\ ~ In "`"%char p) \/
  (map_led e = true /\ exists c u', u = c :: u' /\ In c (B "{NC")).

Lemma name_bq : forall v, name_text v = bq v ++ B " ".
Proof. intros v. unfold name_text, bq. cbn. rewrite <- app_assoc. reflexivity. Qed.
Lemma tail1_more : forall s R, tail1 s -> tail1 (s ++ R).
Proof. intros s R (c & u & -> & H1 & H2). exists c, (u ++ R). split; [reflexivity|]. split; [exact H1|]. apply gapfree_more. exact H2. Qed.
Lemma starts_more : forall e e' u s, map_led e' = map_led e -> starts e u -> tail1 s -> starts e' (u ++ s).
Proof.
  intros e e' u s HM H HS. destruct H as [H|[H|[H|[H|(H1 & c & u' & -> & H2)]]]].
  - left. apply lead_more. exact H.
  - left. destruct HS as (c & w & -> & HC & HG). destruct H as [(v & _ & -> & HV)|(_ & HW)].
    + rewrite <- app_assoc. apply ld_ident; assumption.
    + apply ld_word; assumption.
  - left. destruct HS as (c & w & -> & HC & HG). destruct H as (v & _ & -> & HV). rewrite <- !app_assoc. apply ld_param; assumption.
  - left. destruct HS as (c & w & -> & HC & HG). destruct H as (p & _ & -> & HV). rewrite <- !app_assoc. apply ld_not_param; assumption.
  - right. right. right. right. split; [congruence|]. exists c, (u' ++ s). auto.
Qed.
Lemma lead_not : forall u, lead u -> lead (B "NOT " ++ u).
Proof.
  intros u H. destruct H as [c u HC|v c u HV HC HG|v c u HV HC HG|w c u HW HC HG|c u HC|v c u HV HC HG|w u HW|c u HC|v c u HV HC HG].
  - apply ld_not. apply in_or_app. left. assumption.
  - apply ld_not. cbn. tauto.
  - apply ld_not_param; assumption.
  - cbn [In words] in HW. repeat (destruct HW as [<-|HW]; [apply ld_not; cbn; tauto|]). contradiction.
  - apply ld_not. cbn. tauto.
  - apply ld_not. cbn. tauto.
  - cbn [In over_words] in HW. repeat (destruct HW as [<-|HW]; [apply ld_not; cbn; tauto|]). contradiction.
  - apply ld_not. cbn. tauto.
  - apply ld_not. cbn. tauto.
Qed.
Lemma lead_case : forall u, lead u -> lead (B "CASE " ++ u).
Proof.
  intros u H. destruct H as [c u HC|v c u HV HC HG|v c u HV HC HG|w c u HW HC HG|c u HC|v c u HV HC HG|w u HW|c u HC|v c u HV HC HG].
  - apply ld_case. apply in_or_app. left. apply in_or_app. left. assumption.
  - apply ld_case. cbn. tauto.
  - apply ld_case_param; [assumption| |assumption]. apply in_or_app. left. exact HC.
  - cbn [In words] in HW. repeat (destruct HW as [<-|HW]; [apply ld_case; cbn; tauto|]). contradiction.
  - apply ld_case. cbn. tauto.
  - apply ld_case. cbn. tauto.
  - cbn [In over_words] in HW. repeat (destruct HW as [<-|HW]; [apply ld_case; cbn; tauto|]). contradiction.
  - apply ld_case. cbn. tauto.
  - apply ld_case. cbn. tauto.
Qed.
Lemma starts_not : forall e u, starts e u -> starts (EUn OP_NOT e) (B "NOT " ++ u).
Proof.
  intros e u [H|[[(v & _ & -> & HV)|(_ & HW)]|[(v & -> & -> & HV)|[(p & -> & -> & HV)|(H1 & c & u' & -> & H2)]]]].
  - left. apply lead_not. exact H.
  - left. apply ld_not. cbn. tauto.
  - left. cbn in HW. destruct HW as [<-|[<-|[<-|[]]]]; apply ld_not; cbn; tauto.
  - right. right. right. left. exists v. auto.
  - left. apply ld_not. cbn. tauto.
  - right. right. right. right. split; [exact H1|]. exists "N"%char, (B "OT " ++ c :: u'). split; [reflexivity|cbn; auto].
Qed.
Lemma starts_case : forall e alts d u w, starts e u -> starts (ECase (Some e) alts d) (B "CASE " ++ u ++ "W"%char :: w).
Proof.
  intros e alts d u w [H|[[(v & _ & -> & HV)|(_ & HW)]|[(v & -> & -> & HV)|[(p & -> & -> & HV)|(H1 & c & u' & -> & H2)]]]].
  - left. apply lead_case. apply lead_more. exact H.
  - left. apply ld_case. cbn. tauto.
  - left. cbn in HW. destruct HW as [<-|[<-|[<-|[]]]]; apply ld_case; cbn; tauto.
  - left. replace (B "CASE " ++ (B "$" ++ bq v ++ B " ") ++ "W"%char :: w) with (B "CASE $" ++ bq v ++ B " " ++ "W"%char :: w) by flat_.
    apply ld_case_param; [exact HV|cbn; tauto|]. left. eexists; eexists; split; [reflexivity|cbn [In]; intuition discriminate].
  - left. apply ld_case. cbn. tauto.
  - right. right. right. right. split; [exact H1|]. exists "C"%char, (B "ASE " ++ (c :: u') ++ "W"%char :: w). split; [reflexivity|cbn; auto].
Qed.
Lemma op_tail : forall o R, In o (binaries ++ comparisons ++ postfixes) -> tail1 (op_text o ++ R).
Proof.
  intros o R H. unfold binaries, comparisons, postfixes in H. cbn [app In] in H.
  repeat (destruct H as [<-|H]; [eexists; eexists; split; [reflexivity|split; [cbn; tauto|]]; 
    first [left; eexists; eexists; split; [reflexivity|cbn [In]; intuition discriminate] | right; eexists; reflexivity]|]). contradiction.
Qed.
Lemma char_tail : forall c R, In c (B ".[") -> tail1 (c :: R).
Proof.
  intros c R H. cbn in H. destruct H as [<-|[<-|[]]]; (eexists; eexists; split; [reflexivity|split; [cbn; tauto|]];
    left; eexists; eexists; split; [reflexivity|cbn [In]; intuition discriminate]).
Qed.
Lemma over_starts : forall q, exists w, In w over_words /\ over_word q = w ++ B "( ".
Proof.
  intros q. exists (firstn (List.length (over_word q) - 2) (over_word q)). destruct q; (split; [cbn; tauto|reflexivity]).
Qed.
Lemma call_lead : forall f u, ~ In "`"%char f -> lead (name_text f ++ B "( " ++ u).
Proof.
  intros f u HF. rewrite name_bq, <- app_assoc. apply ld_ident; [exact HF|cbn; tauto|]. left. eexists; eexists; split; [reflexivity|cbn [In]; intuition discriminate].
Qed.
Lemma alts_when : forall es us, prints_alts es us -> exists w, us = B "WHEN " ++ w.
Proof. intros es us H. destruct H; rewrite <- ?app_assoc; eexists; reflexivity. Qed.
Lemma print_starts : 
  (forall k e u, prints k e u -> starts e u) /\
  (forall ls us, prints_links ls us -> exists o R, In o comparisons /\ us = op_text o ++ R) /\
  (forall w x u, prints_opt w x u -> match x with Some e => exists u', u = w ++ u' /\ starts e u' | None => u = [] end) /\
  (forall es us, prints_more es us -> True) /\
  (forall es us, prints_entries es us -> True) /\
  (forall es us, prints_alts es us -> True).
Proof.
  apply prints_mind; auto.
  - intros k u v (q & b & HQ & -> & _). left. cbn. constructor. destruct HQ as [-> | ->]; cbn; tauto.
  - intros k [|c v] HN HD; [congruence|]. left. cbn. constructor. specialize (HD c (or_introl eq_refl)). cbn in HD |- *. tauto.
  - intros k v HV. right. right. left. exists v. unfold bq. cbn. rewrite <- app_assoc. auto.
  - intros k v HV. right. left. left. exists v. rewrite name_bq. auto.
  - intros k. right. left. right. cbn. auto.
  - intros k. right. left. right. cbn. auto.
  - intros k. right. left. right. cbn. auto.
  - intros k o e u HO _ _ IH. unfold prefixes in HO. cbn [In] in HO. destruct HO as [<-|[<-|[<-|[]]]].
    + apply starts_not. exact IH.
    + left. apply ld_free. cbn. tauto.
    + left. apply ld_free. cbn. tauto.
  - intros k o l r ul ur HO _ _ IHl _ _. refine (starts_more _ _ _ _ _ IHl _); [reflexivity|]. apply op_tail. apply in_or_app. auto.
  - intros k l links ul us _ _ IHl _ (o & R & HO & ->). refine (starts_more _ _ _ _ _ IHl _); [reflexivity|]. apply op_tail.
    apply in_or_app. right. apply in_or_app. auto.
  - intros k o e u HO _ _ IH. refine (starts_more _ _ _ _ _ IH _); [reflexivity|]. rewrite <- (app_nil_r (op_text o)). apply op_tail.
    apply in_or_app. right. apply in_or_app. auto.
  - intros k e v u _ _ _ IH. refine (starts_more _ _ _ _ _ IH _); [reflexivity|]. apply char_tail. cbn. tauto.
  - intros k e i u w _ _ IH _ _. refine (starts_more _ _ _ _ _ IH _); [reflexivity|]. apply char_tail. cbn. tauto.
  - intros k e a b u ua ub _ _ IH _ _ _ _. refine (starts_more _ _ _ _ _ IH _); [reflexivity|]. apply char_tail. cbn. tauto.
  - intros k. left. apply ld_free. cbn. tauto.
  - intros k e es u us _ _ _ _ _. left. apply ld_free. cbn. tauto.
  - intros k. right. right. right. right. split; [reflexivity|]. eexists; eexists; split; [reflexivity|cbn; auto].
  - intros k v e es u us _ _ _ _ _. right. right. right. right. split; [reflexivity|]. eexists; eexists; split; [reflexivity|cbn; auto].
  - intros k q x l p u w _ _ _ _ _. left. destruct (over_starts q) as (y & HY & ->). rewrite <- app_assoc. apply ld_over. exact HY.
  - intros k x l p v u w z _ _ _ _ _ _ _. left. apply ld_free. cbn. tauto.
  - intros k a i x l v ui u w _ _ _ _ _ _ _ _. left. apply (ld_over (B "REDUCE ")). cbn. tauto.
  - intros k f d HF. left. apply call_lead. exact HF.
  - intros k f d e es u us HF _ _ _ _. left. apply call_lead. exact HF.
  - intros k f d HF. left. apply call_lead. exact HF.
  - intros k e alts d u us w _ IH HA _ _ _. destruct (alts_when _ _ HA) as (w' & ->). destruct e as [e|].
    + destruct IH as (u' & -> & IH). exact (starts_case e alts d u' _ IH).
    + subst u. left. apply (ld_case "W"%char). cbn. tauto.
  - intros k e u _ _ _. left. apply ld_free. cbn. tauto.
  - intros o e u HO _ _. eauto.
  - intros o e u ls us HO _ _ _ _. exists o, (u ++ us). rewrite <- app_assoc. auto.
  - intros w e u _ IH. exists u. auto.
Qed.
Lemma led_bare : forall e, map_led e = true -> bare e = true.
Proof.
  intros e H. destruct e; try exact H; try discriminate H.
  destruct o; try exact H. destruct e; first [exact H|reflexivity|discriminate H].
Qed.
Lemma print_lead : forall k e u, prints k e u -> bare e = false -> lead u.
Proof.
  intros k e u H HB. destruct (proj1 print_starts k e u H) as [K|[K|[K|[K|[K _]]]]]; [exact K| | | |]; exfalso.
  - destruct K as [(v & -> & _)|(HE & _)]; try discriminate HB. cbn in HE. destruct HE as [<-|[<-|[<-|[]]]]; discriminate HB.
  - destruct K as (p & -> & _). discriminate HB.
  - destruct K as (p & -> & _). discriminate HB.
  - apply led_bare in K. congruence.
Qed.
Lemma lead_first : forall u, lead u -> exists c u', u = c :: u' /\ In c first_chars.
Proof.
  intros u K. destruct K as [c w HC|v c w|v c w|w c w' HW|c w|v c w|w u HW|c u HC|v c u HV HC HG].
  - exists c, w. split; [reflexivity|]. apply in_or_app. left. apply in_or_app. auto.
  - eexists; eexists; split; [reflexivity|cbn; tauto].
  - eexists; eexists; split; [reflexivity|cbn; tauto].
  - cbn [words In] in HW. repeat (destruct HW as [<-|HW]; [eexists; eexists; (split; [reflexivity|cbn; tauto])|]). contradiction.
  - eexists; eexists; split; [reflexivity|cbn; tauto].
  - eexists; eexists; split; [reflexivity|cbn; tauto].
  - cbn [over_words In] in HW. repeat (destruct HW as [<-|HW]; [eexists; eexists; (split; [reflexivity|cbn; tauto])|]). contradiction.
  - eexists; eexists; split; [reflexivity|cbn; tauto].
  - eexists; eexists; split; [reflexivity|cbn; tauto].
Qed.
Lemma print_first : forall k e u, prints k e u -> exists c u', u = c :: u' /\ In c first_chars.
Proof.
  intros k e u H. destruct (proj1 print_starts k e u H) as [K|[K|[K|[K|(_ & c & u' & -> & HC)]]]].
  - apply lead_first. exact K.
  - destruct K as [(v & _ & -> & _)|(_ & HW)].
    + eexists; eexists; split; [reflexivity|cbn; tauto].
    + cbn in HW. destruct HW as [<-|[<-|[<-|[]]]]; eexists; eexists; (split; [reflexivity|cbn; tauto]).
  - destruct K as (p & _ & -> & _). eexists; eexists; split; [reflexivity|cbn; tauto].
  - destruct K as (p & _ & -> & _). eexists; eexists; split; [reflexivity|cbn; tauto].
  - exists c, u'. split; [reflexivity|]. cbn in HC |- *. tauto.
Qed.

(** not the start of a path *)
Lemma print_nopath :
  (forall k e u, prints k e u -> nopath u) /\
  (forall ls us, prints_links ls us -> True) /\
  (forall w x u, prints_opt w x u -> True) /\
  (forall es us, prints_more es us -> True) /\
  (forall es us, prints_entries es us -> True) /\
  (forall es us, prints_alts es us -> True).
Proof.
  apply prints_mind; auto; intros; try (apply nopath_more; assumption); try (apply np_char; cbn; tauto).
  - match goal with H : quoted_text _ _ |- _ => destruct H as (q & b & HQ & -> & _) end. cbn. apply np_char. destruct HQ as [-> | ->]; cbn; tauto.
  - destruct v as [|c v]; [congruence|]. cbn [app]. apply np_char.
    match goal with H : all_in _ _ |- _ => specialize (H c (or_introl eq_refl)); cbn in H |- * end. tauto.
  - match goal with H : In o prefixes |- _ => unfold prefixes in H; cbn [In] in H; destruct H as [<-|[<-|[<-|[]]]] end; apply np_char; cbn; tauto.
  - destruct q; apply np_char; cbn; tauto.
  - replace (B "( " ++ u ++ B ") ") with ((B "( " ++ u) ++ B ") ") by (rewrite <- app_assoc; reflexivity).
    apply nopath_more, np_paren. eapply print_lead; eauto.
Qed.

(** not the start of a list comprehension *)
Lemma follow_op : forall o u, In o (binaries ++ comparisons ++ postfixes) -> o <> OP_IN -> nopath u -> follow (op_text o ++ u).
Proof.
  intros o u H HN HU. unfold binaries, comparisons, postfixes in H. cbn [app In] in H.
  repeat (destruct H as [<-|H]; [first [exfalso; apply HN; reflexivity | exact (fo_eq u HU) | exact (fo_div u)
    | exact (fo_regex (" "%char :: u)) | exact (fo_is _) | apply fo_char; cbn; tauto]|]). contradiction.
Qed.
Lemma wordy_more : forall e u s, wordy e u -> follow s -> nocomp (u ++ s).
Proof.
  intros e u s [(v & _ & -> & HV)|(_ & HW)] HS; [rewrite <- app_assoc; apply nl_ident; assumption|apply nl_word; assumption].
Qed.
Lemma in_led_bin : forall o l r, in_led (EBin o l r) = false -> in_led l = false /\ (o = OP_IN -> forall u, ~ wordy l u).
Proof.
  intros o l r H. split.
  - destruct o; try exact H. destruct l; first [exact H|reflexivity].
  - intros -> u [(v & -> & _)|(HE & _)]; [discriminate H|]. cbn in HE. destruct HE as [<-|[<-|[<-|[]]]]; discriminate H.
Qed.
Lemma print_nocomp :
  (forall k e u, prints k e u -> in_led e = false -> nocomp u \/ wordy e u) /\
  (forall ls us, prints_links ls us -> exists c w, us = c :: w /\ In c (B "<>")) /\
  (forall w x u, prints_opt w x u -> match x with Some e => exists u', u = w ++ u' /\ exists c u'', u' = c :: u'' /\ In c first_chars | None => u = [] end) /\
  (forall es us, prints_more es us -> True) /\
  (forall es us, prints_entries es us -> True) /\
  (forall es us, prints_alts es us -> True).
Proof.
  apply prints_mind; auto.
  - intros k u v (q & b & HQ & -> & _) _. left. cbn. apply nl_char. destruct HQ as [-> | ->]; cbn; tauto.
  - intros k [|c v] HN HD _; [congruence|]. left. cbn [app]. apply nl_char. specialize (HD c (or_introl eq_refl)). cbn in HD |- *. tauto.
  - intros k v HV _. left. apply nl_char. cbn. tauto.
  - intros k v HV _. right. left. exists v. rewrite name_bq. auto.
  - intros k _. right. right. cbn. auto.
  - intros k _. right. right. cbn. auto.
  - intros k _. right. right. cbn. auto.
  - intros k o e u HO _ HP _ _. left. destruct (print_first _ _ _ HP) as (c & u' & -> & HC).
    unfold prefixes in HO. cbn [In] in HO. destruct HO as [<-|[<-|[<-|[]]]].
    + apply (nl_op (B "NOT ")); [cbn; auto|]. apply in_or_app. auto.
    + apply nl_char. cbn. tauto.
    + apply nl_char. cbn. tauto.
  - intros k o l r ul ur HO _ _ IHl HR _ HI. left. apply in_led_bin in HI. destruct HI as [H1 H2]. destruct (IHl H1) as [K|K]; [apply nocomp_more; exact K|].
    eapply wordy_more; [exact K|]. apply follow_op; [apply in_or_app; auto| |exact (proj1 print_nopath _ _ _ HR)].
    intros E. exact (H2 E ul K).
  - intros k l links ul us _ _ IHl _ (c & w & -> & HC) HI. left. destruct (IHl HI) as [K|K]; [apply nocomp_more; exact K|].
    eapply wordy_more; [exact K|]. apply fo_char. cbn in HC |- *. tauto.
  - intros k o e u HO _ _ IH HI. left. 
    assert (HI' : in_led e = false) by exact HI. destruct (IH HI') as [K|K]; [apply nocomp_more; exact K|].
    eapply wordy_more; [exact K|]. unfold postfixes in HO. cbn [In] in HO. destruct HO as [<-|[<-|[]]]; exact (fo_is _).
  - intros k e v u _ _ _ IH HI. left. destruct (IH HI) as [K|K]; [apply nocomp_more; exact K|]. eapply wordy_more; [exact K|]. apply fo_char. cbn. tauto.
  - intros k e i u w _ _ IH _ _ HI. left. destruct (IH HI) as [K|K]; [apply nocomp_more; exact K|]. eapply wordy_more; [exact K|]. apply fo_char. cbn. tauto.
  - intros k e a b u ua ub _ _ IH _ _ _ _ HI. left. destruct (IH HI) as [K|K]; [apply nocomp_more; exact K|]. eapply wordy_more; [exact K|]. apply fo_char. cbn. tauto.
  - intros k _. left. apply nl_char. cbn. tauto.
  - intros. left. apply nl_char. cbn. tauto.
  - intros k _. left. apply nl_char. cbn. tauto.
  - intros. left. apply nl_char. cbn. tauto.
  - intros k q x l p u w _ _ _ _ _ _. left. destruct (over_starts q) as (y & HY & ->). rewrite <- app_assoc. apply nl_over. exact HY.
  - intros. left. apply nl_char. cbn. tauto.
  - intros. left. apply (nl_over (B "REDUCE ")). cbn. tauto.
  - intros k f d HF _. left. rewrite name_bq, <- app_assoc. apply nl_ident; [exact HF|]. apply fo_char. cbn. tauto.
  - intros k f d e es u us HF _ _ _ _ _. left. rewrite name_bq, <- app_assoc. apply nl_ident; [exact HF|]. apply fo_char. cbn. tauto.
  - intros k f d HF _. left. rewrite name_bq, <- app_assoc. apply nl_ident; [exact HF|]. apply fo_char. cbn. tauto.
  - intros k e alts d u us w _ IH HA _ _ _ _. left. destruct (alts_when _ _ HA) as (w' & ->). destruct e as [e|].
    + destruct IH as (u' & -> & c & u'' & -> & HC). apply (nl_op (B "CASE ") c); [cbn; auto|apply in_or_app; auto].
    + subst u. apply (nl_op (B "CASE ") "W"%char); [cbn; auto|cbn; tauto].
  - intros k e u HB HP _ _. left. replace (B "( " ++ u ++ B ") ") with ((B "( " ++ u) ++ B ") ") by (rewrite <- app_assoc; reflexivity).
    apply nocomp_more, nl_paren. eapply print_lead; eauto.
  - intros o e u HO _ _. unfold comparisons in HO. cbn [In] in HO. destruct HO as [<-|[<-|[<-|[<-|[]]]]]; eexists; eexists; (split; [reflexivity|cbn; tauto]).
  - intros o e u ls us HO _ _ _ _. unfold comparisons in HO. cbn [In] in HO. destruct HO as [<-|[<-|[<-|[<-|[]]]]]; eexists; eexists; (split; [reflexivity|cbn; tauto]).
  - intros w e u HP _. exists u. split; [reflexivity|]. eapply print_first; eauto.
Qed.
Lemma print_gapfree : forall k e u R, prints k e u -> gapfree (u ++ R).
Proof.
  intros k e u R H. destruct (print_first k e u H) as (c & u' & -> & HC). left. exists c, (u' ++ R). split; [reflexivity|].
  intros K. cbn in K. destruct K as [<-|[<-|[<-|[<-|[<-|[]]]]]]; cbn in HC; intuition discriminate.
Qed.
Lemma print_nonempty : forall k e u, prints k e u -> u <> [].
Proof. intros k e u H. destruct (print_first k e u H) as (c & u' & -> & _). discriminate. Qed.

(** ** What follows *)
Definition cond (need : option nat) (X : bytes) : Prop := match need with None => True | Some n => stops n X end.
Definition need_ok (k : nat) (need : option nat) : Prop :=
  match need with None => True | Some n => k <= n <= 12 /\ (n = k -> In n [4; 6; 9; 10]) end.
Lemma cond_mono : forall k need X, need_ok k need -> stops k X -> cond need X.
Proof. intros k [n|] X H HS; [|exact I]. destruct H as [H _]. eapply stops_mono; [|exact HS]. lia. Qed.

Lemma op_nocall : forall o R, In o (binaries ++ comparisons ++ postfixes) -> nocall (op_text o ++ R).
Proof.
  intros o R H. unfold binaries, comparisons, postfixes in H. cbn [app In] in H.
  repeat (destruct H as [<-|H]; [first [apply nc_char; cbn [In]; intuition discriminate | apply nc_div]|]). contradiction.
Qed.
Lemma op_stops : forall o n R, In o (binaries ++ comparisons ++ postfixes) -> level o < n -> gapfree R -> stops n (op_text o ++ R).
Proof.
  intros o n R H HL HG. right. exists o, (op_text o), R. split; [|split; [rewrite <- level_oprec; exact HL|auto]].
  unfold after_ops. apply in_app_or in H. destruct H as [H|H]; [apply in_or_app; left; apply binary_infix; exact H|].
  apply in_or_app. right. apply in_app_or in H. destruct H as [H|H]; [apply in_or_app; left; apply comparison_op; exact H|].
  apply in_or_app. right. apply postfix_op. exact H.
Qed.
(** an operator goes on after an operand at its left level *)
Lemma left_cond : forall o need R, In o (binaries ++ comparisons ++ postfixes) -> gapfree R ->
  need_ok (if existsb (fun x => Nat.eqb (level o) x) [4; 6; 9; 10] then S (level o) else level o) need ->
  cond need (op_text o ++ R).
Proof.
  intros o [n|] R HO HG HN; [|exact I]. cbn [cond need_ok] in *. apply op_stops; [exact HO| |exact HG].
  destruct (existsb (fun x => Nat.eqb (level o) x) [4; 6; 9; 10]) eqn:E; [lia|]. destruct HN as [H1 H2].
  destruct (Nat.eq_dec n (level o)) as [->|N]; [|lia]. exfalso. specialize (H2 eq_refl).
  assert (K : existsb (fun x => Nat.eqb (level o) x) [4; 6; 9; 10] = true) by (apply existsb_exists; exists (level o); split; [exact H2|apply Nat.eqb_refl]).
  congruence.
Qed.
Lemma no_need : forall k need, 12 <= k -> need_ok k need -> need = None.
Proof. intros k [n|] HK HN; [|reflexivity]. exfalso. destruct HN as [H1 H2]. assert (n = k) by lia. specialize (H2 H). cbn in H2. lia. Qed.

Lemma closer_nocall : forall R, closer R -> nocall R.
Proof.
  intros R H. destruct H as [c R HC|R|w R HW].
  - apply nc_char. cbn in HC. repeat (destruct HC as [<-|HC]; [cbn [In]; intuition discriminate|]). contradiction.
  - apply nc_dots.
  - cbn [close_words In] in HW. repeat (destruct HW as [<-|HW]; [apply nc_char; cbn [In]; intuition discriminate|]). contradiction.
Qed.

Section Print.
Variables (col : coloring) (off : position) (inp : bytes).
Notation runc := (run CG (get_of inp) (cprun col off)).
Notation cst := (pst action cuser).
Notation performs := (performs inp).
Notation takes := (takes col off inp).
Notation refuses := (refuses col off inp).

Definition loops (ps : list nat) (w R : bytes) (g : term -> term) : Prop :=
  (w = [] /\ g = (fun t => t) /\ refuses (mkt None ps) suffix R) \/
  (w <> [] /\ takes (mkt None ps) (PPlus suffix) w R (HFold 5 g)).
Lemma loops_more : forall ps x f w R g, x <> [] -> takes (mkt None ps) suffix x (w ++ R) (HFold 5 f) -> loops ps w R g ->
  loops ps (x ++ w) R (fun t => g (f t)).
Proof.
  intros ps x f w R g HX H [(-> & -> & HR)|(HW & HT)]; right; (split; [destruct x; [congruence|discriminate]|]).
  - rewrite app_nil_r. cbn [app] in H. apply plus_last; [exact H|exact HR].
  - eapply plus_more; [exact H|exact HT|]. intros l1 l2 H1 H2. exact (performs_fold_app _ _ _ _ _ _ H1 H2).
Qed.

(** [u] is read as [e], with anything that can follow *)
Definition reads (k : nat) (e : ex) (u : bytes) : Prop :=
  exists need, need_ok k need /\ forall ps w R g, hd 0 ps <= k -> cond need (w ++ R) -> nocall (w ++ R) -> nocall R ->
    loops ps w R g -> takes (mkt None ps) (PRule R__expression) (u ++ w) R (HNode (g (ex_term e))).
Lemma nocall_nonempty : forall R, nocall R -> R <> [].
Proof. intros R H ->. inversion H. Qed.
Lemma reads_atom : forall k e u need, u <> [] -> need_ok k need ->
  (forall t R, nocall R -> cond need R -> takes t (PRule R__atom) u R (HNode (ex_term e))) -> reads k e u.
Proof.
  intros k e u need HU HN H. exists need. split; [exact HN|]. intros ps w R g _ HC HF HR [(-> & -> & HE)|(HW & HT)].
  - rewrite app_nil_r. cbn [app] in *. apply expr_plain; auto. apply nocall_nonempty. exact HR.
  - apply expr_suffixed; auto. apply nocall_nonempty. exact HR.
Qed.
(** an operator after an operand *)
Lemma reads_suffix : forall k k0 e e' u x need f, reads k0 e u -> k <= k0 -> x <> [] -> need_ok k need ->
  (forall t, f t = f t) -> ex_term e' = f (ex_term e) ->
  (forall R, nocall R -> nocall (x ++ R)) ->
  (forall n0 R, need_ok k0 n0 -> nocall R -> cond n0 (x ++ R)) ->
  (forall ps R, hd 0 ps <= k -> nocall R -> cond need R -> takes (mkt None ps) suffix x R (HFold 5 f)) ->
  reads k e' (u ++ x).
Proof.
  intros k k0 e e' u x need f (n0 & HN0 & H) HK HX HN _ HE HF HC HS. exists need. split; [exact HN|].
  intros ps w R g HP HC2 HF2 HR HL. rewrite HE, <- app_assoc.
  apply (H ps (x ++ w) R (fun t => g (f t))); [lia| | |exact HR|].
  - rewrite <- app_assoc. apply HC; assumption.
  - rewrite <- app_assoc. apply HF. exact HF2.
  - apply loops_more; [exact HX| |exact HL]. apply HS; assumption.
Qed.
Lemma reads_prec : forall k e u o ps R, reads k e u -> next_prec o = k -> k <= 12 -> u <> [] -> nocall R -> stops k R ->
  takes (mkt (Some o) ps) (PRule R__prec_expression) u R (HNode (ex_term e)).
Proof.
  intros k e u o ps R (need & HN & H) HO HK HU HR HS. apply expr_prec; [exact HU|apply nocall_nonempty; exact HR|].
  specialize (H (next_prec o :: ps) [] R (fun t => t)). rewrite app_nil_r in H. cbn [app hd] in H.
  apply H; [lia|eapply cond_mono; eauto|exact HR|exact HR|]. left. split; [reflexivity|]. split; [reflexivity|].
  eapply refuse_suffix; [exact HS|symmetry; exact HO|exact HK].
Qed.
Lemma reads_top : forall e u t R, reads 0 e u -> u <> [] -> closer R -> takes t (PRule R_expression) u R (HNode (ex_term e)).
Proof.
  intros e u t R (need & HN & H) HU HS. pose proof (closer_nocall R HS) as HR. apply takes_weaken. apply expr_top; [exact HU|apply nocall_nonempty; exact HR|].
  specialize (H (0 :: t_prs t) [] R (fun t => t)). rewrite app_nil_r in H. cbn [app hd] in H.
  apply H; [lia|eapply cond_mono; [exact HN|left; exact HS]|exact HR|exact HR|]. left. split; [reflexivity|]. split; [reflexivity|].
  apply (refuse_suffix col off inp 0); [left; exact HS|reflexivity|lia].
Qed.

(** *** A chain of comparisons ends *)
Lemma refuse_chain1 : forall R ps, stops 6 R -> hd 0 ps <= 6 -> refuses (mkt None ps) chain1 R.
Proof.
  intros R ps [H|(o & x & R' & HI & HO & -> & HG)] HN.
  - destruct H as [c R HC|R|w R HW].
    + cbn in HC. repeat (destruct HC as [<-|HC]); [..|contradiction HC].
      all: match goal with |- refuses _ _ (?c :: ?R) => replace (c :: R) with (text (two [] R) [Ho 9 c]) by (text_; reflexivity);
        eapply (refuse_of col off inp (two [] R) (one_eff HNone) fact_pass 200 chain1 [Ho 9 c] (mkt None ps)); [run_fail|reflexivity|] end.
      all: obs_ ltac:(apply ob_chk_pass; cbn; lia).
    + replace (B ".." ++ R) with (text (two [] R) [Kn "."; Ho 9 "."]%char) by (text_; reflexivity).
      eapply (refuse_of col off inp (two [] R) (one_eff HNone) fact_pass 200 chain1 [Kn "."; Ho 9 "."]%char (mkt None ps)); [run_fail|reflexivity|].
      obs_ ltac:(apply ob_chk_pass; cbn; lia).
    + replace (w ++ R) with (text (two [] R) (map Kn (removelast w) ++ [Ho 9 " "%char]))
        by (cbn [close_words In] in HW; repeat (destruct HW as [<-|HW]; [cbn; rewrite ?app_nil_r; reflexivity|]); contradiction).
      cbn [close_words In] in HW. repeat (destruct HW as [<-|HW]); [..|contradiction HW].
      all: (eapply (refuse_of col off inp (two [] R) (one_eff HNone) fact_pass 200 chain1); [run_fail|reflexivity|]).
      all: obs_ ltac:(apply ob_chk_pass; cbn; lia).
  - open_gap R' HG. unfold after_ops, infix_ops, comparison_ops, postfix_ops in HI. cbn [app] in HI.
    repeat (destruct HI as [HI|HI]; [injection HI as <- <-|]); [..|contradiction HI].
    all: try (exfalso; cbn in HO; lia).
    all: match goal with |- refuses _ _ (?x ++ ?c :: ?R) => 
      replace (x ++ c :: R) with (text (two [] R) (map Kn x ++ [Ho 9 c])) by (text_; reflexivity) end.
    all: (eapply (refuse_of col off inp _ (one_eff HNone) fact_pass 200 chain1 _ (mkt None ps)); [run_fail|reflexivity|]).
    all: obs_ ltac:(apply ob_chk_pass; cbn [oprec]; lia).
Qed.

(** *** Every text *)
Lemma link_first : forall ls us, prints_links ls us -> exists o w, In o comparisons /\ us = op_text o ++ w /\ w <> [] /\ forall R, gapfree (w ++ R).
Proof.
  intros ls us H. destruct H as [o e u HO HP|o e u ls us HO HP _].
  - exists o, u. repeat split; auto; [eapply print_nonempty; eauto|]. intros R. eapply print_gapfree; eauto.
  - exists o, (u ++ us). rewrite <- app_assoc. repeat split; auto.
    + intros E. apply app_eq_nil in E. destruct E as [E _]. eapply print_nonempty; eauto.
    + intros R. rewrite <- app_assoc. eapply print_gapfree; eauto.
Qed.
Lemma op_nonempty : forall o, In o (prefixes ++ binaries ++ comparisons ++ postfixes) -> op_text o <> [].
Proof.
  intros o H. unfold prefixes, binaries, comparisons, postfixes in H. cbn [app In] in H.
  repeat (destruct H as [<-|H]; [discriminate|]). contradiction.
Qed.
Lemma in3 : forall o, In o binaries \/ In o comparisons \/ In o postfixes -> In o (binaries ++ comparisons ++ postfixes).
Proof. intros o H. rewrite !in_app_iff. exact H. Qed.
Lemma in4 : forall o, In o binaries \/ In o comparisons \/ In o postfixes -> op_text o <> [].
Proof. intros o H. apply op_nonempty. rewrite !in_app_iff. auto. Qed.
Lemma app_ne : forall (x y : bytes), x <> [] -> x ++ y <> [].
Proof. intros [|c x] y H; [congruence|discriminate]. Qed.
Lemma left_bin : forall o, In o binaries ->
  left_level o = if existsb (fun x => Nat.eqb (level o) x) [4; 6; 9; 10] then S (level o) else level o.
Proof. intros o H. unfold binaries in H. cbn [In] in H. repeat (destruct H as [<-|H]; [reflexivity|]). contradiction. Qed.
Lemma left_post : forall o, In o postfixes ->
  level o = if existsb (fun x => Nat.eqb (level o) x) [4; 6; 9; 10] then S (level o) else level o.
Proof. intros o H. unfold postfixes in H. cbn [In] in H. repeat (destruct H as [<-|H]; [reflexivity|]). contradiction. Qed.
Lemma left_cmp : forall o, In o comparisons ->
  7 = if existsb (fun x => Nat.eqb (level o) x) [4; 6; 9; 10] then S (level o) else level o.
Proof. intros o H. unfold comparisons in H. cbn [In] in H. repeat (destruct H as [<-|H]; [reflexivity|]). contradiction. Qed.
Lemma need_right : forall o k, In o binaries -> k <= level o -> need_ok k (Some (right_level o)).
Proof.
  intros o k H HK. unfold binaries in H. cbn [In] in H.
  repeat (destruct H as [<-|H]; [cbn in HK |- *; split; [lia|intros E; try lia; tauto]|]). contradiction.
Qed.
Lemma need_prefix : forall o k, In o prefixes -> k <= level o -> need_ok k (Some (level o)).
Proof.
  intros o k H HK. unfold prefixes in H. cbn [In] in H.
  repeat (destruct H as [<-|H]; [cbn in HK |- *; split; [lia|tauto]|]). contradiction.
Qed.

Definition link_ops (ls : list (oper * ex)) : list oper := map fst ls.
Definition link_terms (ls : list (oper * ex)) : list term := map (fun x => ex_term (snd x)) ls.

(** the start of what follows *)
Lemma rep_closer : forall x f k us ts R, rep col off inp x f k us ts R -> closer R -> closer (us ++ R).
Proof. intros x f k us ts R [(-> & ->)|(us' & -> & _)] H; [exact H|apply cl_char; cbn; auto]. Qed.
Lemma pre_closer : forall w y R, In w (B "| " :: close_words) -> closer R -> closer (pre_text w y ++ R).
Proof.
  intros w [[u tm]|] R HW HR; [|exact HR]. cbn [pre_text]. rewrite <- app_assoc. destruct HW as [<-|HW]; [apply cl_char; cbn; tauto|apply cl_word; exact HW].
Qed.
Lemma top_ok : forall k e u R, prints k e u -> reads 0 e u -> closer R -> u <> [] /\ gapfree (u ++ R) /\
  forall t, takes t (PRule R_expression) u R (HNode (ex_term e)).
Proof.
  intros k e u R HP HR HC. split; [eapply print_nonempty; eauto|]. split; [eapply print_gapfree; eauto|].
  intros t. apply reads_top; [exact HR|eapply print_nonempty; eauto|exact HC].
Qed.
Lemma rep_nil : forall x f k R, rep col off inp x f k [] [] R.
Proof. left. auto. Qed.
Lemma rep_more : forall x f k u us ts t1 R, (exists u', u = ","%char :: u') ->
  (forall t, takes t x u (us ++ R) (HSeq f k t1)) -> (us = [] -> forall t, refuses t x R) -> rep col off inp x f k us ts R ->
  rep col off inp x f k (u ++ us) (t1 ++ ts) R.
Proof.
  intros x f k u us ts t1 R (u' & ->) H1 H2 HR. right. exists (u' ++ us). split; [reflexivity|]. intros t. destruct HR as [(-> & ->)|(us' & E & HT)].
  - rewrite !app_nil_r. apply seq_one; [apply H1|apply H2; reflexivity].
  - apply seq_more; [apply H1|apply HT].
Qed.

Theorem all_read :
  (forall k e u, prints k e u -> reads k e u) /\
  (forall ls us, prints_links ls us -> forall ps R, hd 0 ps <= 6 -> nocall R -> stops 6 R ->
     takes (mkt None ps) (PPlus chain1) us R (HChain 5 (link_ops ls) (link_terms ls))) /\
  (forall w x u, prints_opt w x u -> exists y, pre_text w y = u /\ end_term y = option_map ex_term x /\
     (forall c u tm, y = Some (c :: u, tm) -> In c first_chars) /\ forall R, closer R -> end_ok col off inp y R) /\
  (forall es us, prints_more es us -> forall f k c R, In (f, k) [(SNode, 1); (SLost, 0)] -> In c (B ")]") ->
     rep col off inp (comma_item k) f k us (map ex_term es) (c :: R)) /\
  (forall es us, prints_entries es us -> forall R,
     rep col off inp entry_item SLost 1 us (flat_map (fun x => [T T_PROP_NAME [TStr (fst x)]; ex_term (snd x)]) es) ("}"%char :: R)) /\
  (forall es us, prints_alts es us -> forall f t R, In f [SNode; SNull] -> closer ("E"%char :: R) ->
     takes t (PPlus alternative) us ("E"%char :: R) (HSeq f 1 (flat_map (fun x => [ex_term (fst x); ex_term (snd x)]) es))).
Proof.
  apply prints_mind.
  - intros k u v HQ. apply reads_atom with (need := None); [|exact I|].
    + destruct HQ as (q & b & _ & -> & _). discriminate.
    + intros t R HR _. apply take_string; [exact HQ|apply nocall_gapfree; exact HR].
  - intros k [|d v] HN HD; [congruence|]. apply reads_atom with (need := None); [discriminate|exact I|].
    intros t R HR _. apply take_int; [exact HD|apply nocall_gapfree; exact HR].
  - intros k v HV. apply reads_atom with (need := None); [discriminate|exact I|].
    intros t R HR _. apply take_param; [exact HV|apply nocall_gapfree; exact HR].
  - intros k v HV. apply reads_atom with (need := None); [discriminate|exact I|].
    intros t R HR _. rewrite name_bq. apply take_ident; [exact HV|exact HR].
  - intros k. apply reads_atom with (need := None); [discriminate|exact I|].
    intros t R HR _. apply take_word with (r := R_true_literal); [cbn; auto|apply nocall_gapfree; exact HR].
  - intros k. apply reads_atom with (need := None); [discriminate|exact I|].
    intros t R HR _. apply take_word with (r := R_false_literal); [cbn; auto|apply nocall_gapfree; exact HR].
  - intros k. apply reads_atom with (need := None); [discriminate|exact I|].
    intros t R HR _. apply take_word with (r := R_null_literal); [cbn; auto|apply nocall_gapfree; exact HR].
  - intros k o e u HO HK HP IH. destruct (prefix_op o HO) as (P1 & P2 & P3).
    apply reads_atom with (need := Some (level o)); [|apply need_prefix; assumption|].
    { rewrite P2. destruct o; discriminate. }
    intros t R HR HC. rewrite P2. apply take_prefix; [exact P1|eapply print_gapfree; eauto| |eapply print_nonempty; eauto|apply nocall_gapfree; exact HR].
    eapply reads_prec; [exact IH|exact P3| |eapply print_nonempty; eauto|exact HR|exact HC].
    pose proof (need_prefix o k HO HK) as [K _]. lia.
  - intros k o l r ul ur HO HK HL IHl HR IHr. destruct (right_next o HO) as [R1 R2].
    apply reads_suffix with (k0 := left_level o) (e := l) (need := Some (right_level o))
      (f := fun t0 => T T_BINARY_OPERATOR [TOper (Some o); TNode (Some t0); TNode (Some (ex_term r))]);
      [exact IHl| |apply app_ne, in4; auto|apply need_right; assumption|reflexivity|reflexivity| | |].
    + rewrite (left_bin o HO). destruct (existsb _ _); lia.
    + intros R HF. rewrite <- app_assoc. apply op_nocall, in3. auto.
    + intros n0 R HN HF. rewrite <- app_assoc. apply left_cond; [apply in3; auto|eapply print_gapfree; eauto|].
      rewrite <- (left_bin o HO). exact HN.
    + intros ps R HP HF HC. apply step_infix; [apply binary_infix; exact HO|rewrite <- level_oprec; lia|eapply print_nonempty; eauto|
        eapply print_gapfree; eauto|apply nocall_gapfree; exact HF|].
      eapply reads_prec; [exact IHr|symmetry; exact R1|exact R2|eapply print_nonempty; eauto|exact HF|exact HC].
  - intros k l links ul us HK HL IHl HS IHs. destruct (link_first links us HS) as (o & w & HO & HE & HW & HG).
    apply reads_suffix with (k0 := 7) (e := l) (need := Some 6)
      (f := fun t0 => T T_COMPARISON [TOpers (link_ops links); TList (t0 :: link_terms links)]);
      [exact IHl|lia| |split; [lia|cbn; auto]|reflexivity|reflexivity| | |].
    + rewrite HE. apply app_ne, in4. auto.
    + intros R HF. rewrite HE, <- app_assoc. apply op_nocall, in3. auto.
    + intros n0 R HN HF. rewrite HE, <- app_assoc. apply left_cond; [apply in3; auto|apply HG|].
      rewrite <- (left_cmp o HO). exact HN.
    + intros ps R HP HF HC. specialize (IHs ps R ltac:(lia) HF HC). rewrite HE in IHs |- *.
      eapply step_chain; [apply comparison_op; exact HO|apply HG|apply nocall_gapfree; exact HF|exact HW| |exact IHs].
      unfold link_ops, link_terms. rewrite !map_length. reflexivity.
  - intros k o e u HO HK HP IH.
    apply reads_suffix with (k0 := level o) (e := e) (need := None)
      (f := fun t0 => T T_UNARY_OPERATOR [TOper (Some o); TNode (Some t0)]);
      [exact IH|exact HK|apply in4; auto|exact I|reflexivity|reflexivity| | |].
    + intros R HF. apply op_nocall, in3. auto.
    + intros n0 R HN HF. apply left_cond; [apply in3; auto|apply nocall_gapfree; exact HF|]. rewrite <- (left_post o HO). exact HN.
    + intros ps R HP2 HF _. apply step_postfix; [apply postfix_op; exact HO|rewrite <- level_oprec; lia|apply nocall_gapfree; exact HF].
  - intros k e v u HV HK HP IH.
    apply reads_suffix with (k0 := 13) (e := e) (need := None)
      (f := fun t0 => T T_PROPERTY_OPERATOR [TNode (Some t0); TNode (Some (T T_PROP_NAME [TStr v]))]);
      [exact IH|exact HK|discriminate|exact I|reflexivity|reflexivity| | |].
    + intros R HF. rewrite <- !app_assoc. apply nc_prop; assumption.
    + intros n0 R HN HF. rewrite (no_need 13 n0 ltac:(lia) HN). exact I.
    + intros ps R HP2 HF _. apply step_property; [exact HV|cbn [oprec]; lia|apply nocall_gapfree; exact HF].
  - intros k e i u w HK HP IH HI IHi.
    apply reads_suffix with (k0 := 12) (e := e) (need := None)
      (f := fun t0 => T T_SUBSCRIPT_OPERATOR [TNode (Some t0); TNode (Some (ex_term i))]);
      [exact IH|exact HK|discriminate|exact I|reflexivity|reflexivity| | |].
    + intros R HF. apply nc_char. cbn. intuition discriminate.
    + intros n0 R HN HF. rewrite (no_need 12 n0 ltac:(lia) HN). exact I.
    + intros ps R HP2 HF _. apply step_subscript; [cbn [oprec]; lia|eapply print_nonempty; eauto|eapply print_gapfree; eauto|apply nocall_gapfree; exact HF|].
      intros t. apply reads_top; [exact IHi|eapply print_nonempty; eauto|apply cl_char; cbn; auto].
  - intros k e a b u ua ub HK HP IH HA (ya & A1 & A2 & _ & A3) HB (yb & B1 & B2 & _ & B3).
    apply reads_suffix with (k0 := 12) (e := e) (need := None)
      (f := fun t0 => T T_SLICE_OPERATOR [TNode (Some t0); TNode (end_term ya); TNode (end_term yb)]);
      [exact IH|exact HK|discriminate|exact I|reflexivity|cbn [ex_term]; rewrite A2, B2; reflexivity| | |].
    + intros R HF. apply nc_char. cbn. intuition discriminate.
    + intros n0 R HN HF. rewrite (no_need 12 n0 ltac:(lia) HN). exact I.
    + intros ps R HP2 HF _. rewrite <- A1, <- B1. apply step_slice; [cbn [oprec]; lia|apply nocall_gapfree; exact HF| |].
      * apply A3. exact (cl_dots _).
      * apply B3. apply cl_char; cbn; auto.
  - intros k. apply reads_atom with (need := None); [discriminate|exact I|].
    intros t R HR _. apply take_list0. apply nocall_gapfree; exact HR.
  - intros k e es u us HI HP IH HM IHm. apply reads_atom with (need := None); [discriminate|exact I|].
    intros t R HR _. specialize (IHm SLost 0 "]"%char (" "%char :: R) ltac:(cbn; auto) ltac:(cbn; auto)).
    destruct (top_ok 0 e u _ HP IH (rep_closer _ _ _ _ _ _ IHm (cl_char "]"%char _ ltac:(cbn; auto)))) as (T1 & T2 & T3).
    apply take_list; [exact T1|exact T2|apply nocall_gapfree; exact HR|exact T3|exact IHm|].
    intros t' r Hr. destruct (proj1 print_nocomp 0 e u HP HI) as [K|K]; [apply no_comp; assumption|].
    replace (B "[ " ++ u ++ us ++ B "] " ++ R) with (B "[ " ++ (u ++ us ++ B "] " ++ R) ++ []) by (rewrite app_nil_r; reflexivity).
    apply no_comp; [exact Hr|]. eapply wordy_more; [exact K|]. destruct IHm as [(-> & _)|(us' & -> & _)]; apply fo_char; cbn; tauto.
  - intros k. apply reads_atom with (need := None); [discriminate|exact I|].
    intros t R HR _. apply take_map0. apply nocall_gapfree; exact HR.
  - intros k v e es u us HV HP IH HM IHm. apply reads_atom with (need := None); [discriminate|exact I|].
    intros t R HR _. specialize (IHm (" "%char :: R)).
    destruct (top_ok 0 e u _ HP IH (rep_closer _ _ _ _ _ _ IHm (cl_char "}"%char _ ltac:(cbn; auto 10)))) as (T1 & T2 & T3).
    apply take_map; [exact HV|exact T1|exact T2|apply nocall_gapfree; exact HR|exact T3|exact IHm].
  - intros k q x l p u w HX HP IH HO (y & Y1 & Y2 & _ & Y3). apply reads_atom with (need := None); [destruct q; discriminate|exact I|].
    intros t R HR _. assert (HC : closer (B ") " ++ R)) by (apply cl_char; cbn; auto).
    assert (HW : In (over_sep q) (B "| " :: close_words)) by (destruct q; cbn; auto 10).
    destruct (top_ok 0 l u _ HP IH (pre_closer _ y _ HW HC)) as (T1 & T2 & T3).
    cbn [ex_term]. rewrite <- Y1, <- Y2. apply take_over; [exact HX|exact T1|exact T2|apply nocall_gapfree; exact HR|exact T3|apply Y3; exact HC].
  - intros k x l p v u w z HX HP IH HO (y & Y1 & Y2 & _ & Y3) HZ (y' & Z1 & Z2 & _ & Z3). apply reads_atom with (need := None); [discriminate|exact I|].
    intros t R HR _. assert (HC : closer (B "] " ++ R)) by (apply cl_char; cbn; auto).
    assert (HC2 : closer (pre_text (B "| ") y' ++ B "] " ++ R)) by (apply pre_closer; [cbn; auto|exact HC]).
    destruct (top_ok 0 l u _ HP IH (pre_closer (B "WHERE ") y _ ltac:(cbn; auto) HC2)) as (T1 & T2 & T3).
    cbn [ex_term]. rewrite <- Y1, <- Y2, <- Z1, <- Z2.
    apply take_comp; [exact HX|exact T1|exact T2|apply nocall_gapfree; exact HR|exact T3|apply Y3; exact HC2|apply Z3; exact HC].
  - intros k a i x l v ui u w HA HI IHi HX HP IH HO (y & Y1 & Y2 & _ & Y3). apply reads_atom with (need := None); [discriminate|exact I|].
    intros t R HR _. assert (HC : closer (B ") " ++ R)) by (apply cl_char; cbn; auto).
    destruct (top_ok 0 l u _ HP IH (pre_closer (B "| ") y _ ltac:(cbn; auto) HC)) as (T1 & T2 & T3).
    destruct (top_ok 0 i ui (B ", " ++ name_text x ++ B "IN " ++ u ++ pre_text (B "| ") y ++ B ") " ++ R) HI IHi) as (S1 & S2 & S3).
    { apply cl_char. cbn. auto. }
    cbn [ex_term]. rewrite <- Y1, <- Y2.
    apply take_reduce; [exact HA|exact HX|exact S1|exact T1|exact S2|exact T2|apply nocall_gapfree; exact HR|exact S3|exact T3|apply Y3; exact HC].
  - intros k f d HF. apply reads_atom with (need := None); [discriminate|exact I|].
    intros t R HR _. apply take_call0; [exact HF|apply nocall_gapfree; exact HR].
  - intros k f d e es u us HF HP IH HM IHm. apply reads_atom with (need := None); [discriminate|exact I|].
    intros t R HR _. specialize (IHm SNode 1 ")"%char (" "%char :: R) ltac:(cbn; auto) ltac:(cbn; auto)).
    destruct (top_ok 0 e u _ HP IH (rep_closer _ _ _ _ _ _ IHm (cl_char ")"%char _ ltac:(cbn; auto)))) as (T1 & T2 & T3).
    destruct (print_first 0 e u HP) as (c1 & u1 & -> & HC).
    apply take_call; [exact HF|exact HC|exact T2|apply nocall_gapfree; exact HR|exact T3|exact IHm].
  - intros k f d HF. apply reads_atom with (need := None); [discriminate|exact I|].
    intros t R HR _. apply take_callall; [exact HF|apply nocall_gapfree; exact HR].
  - intros k e alts d u us w HE (x & X1 & X2 & X3 & X4) HA IHa HD (z & Z1 & Z2 & _ & Z3). apply reads_atom with (need := None); [discriminate|exact I|].
    intros t R HR _. assert (HC : closer (B "END " ++ R)) by (apply cl_word; cbn; tauto).
    assert (HC2 : exists R2, pre_text (B "ELSE ") z ++ B "END " ++ R = "E"%char :: R2 /\ closer ("E"%char :: R2)).
    { pose proof (pre_closer (B "ELSE ") z _ ltac:(cbn; tauto) HC) as K. destruct z as [[uz tz]|]; eexists; (split; [reflexivity|exact K]). }
    destruct (alts_when _ _ HA) as (us' & ->). cbn [ex_term]. rewrite <- X1, <- Z1, <- X2, <- Z2.
    apply (take_case col off inp t x (B "HEN " ++ us') z R _ (List.length alts)); [apply nocall_gapfree; exact HR| |apply X4; apply (cl_word (B "WHEN ")); cbn; tauto|exact X3| |apply Z3; exact HC].
    + clear. induction alts as [|a alts IH]; [reflexivity|]. cbn [flat_map app List.length]. lia.
    + intros t'. destruct HC2 as (R2 & -> & HC2). apply IHa; [destruct x; cbn; auto|exact HC2].
  - intros k e u HB HP IH. apply reads_atom with (need := None); [discriminate|exact I|].
    intros t R HR _. apply take_paren; [|eapply print_nonempty; eauto|eapply print_gapfree; eauto|apply nocall_gapfree; exact HR|].
    + intros t'. apply reads_top; [exact IH|eapply print_nonempty; eauto|apply cl_char; cbn; auto].
    + intros t'. rewrite app_assoc, <- app_assoc. apply no_pattern; [cbn; auto|]. eapply print_lead; eauto.
  - intros o e u HO HP IH ps R HS HF HC. destruct (chain_next o HO) as [N1 N2].
    change (link_ops [(o, e)]) with [o]. change (link_terms [(o, e)]) with [ex_term e].
    apply plus_last; [|apply refuse_chain1; assumption].
    apply step_chain1; [apply comparison_op; exact HO|lia|eapply print_nonempty; eauto|eapply print_gapfree; eauto|apply nocall_gapfree; exact HF|].
    eapply reads_prec; [exact IH|exact N1|lia|eapply print_nonempty; eauto|exact HF|eapply stops_mono; [|exact HC]; lia].
  - intros o e u ls us HO HP IH HL IHs ps R HS HF HC. destruct (chain_next o HO) as [N1 N2].
    destruct (link_first ls us HL) as (o2 & w & HO2 & HE & HW & HG).
    assert (HF2 : nocall (us ++ R)) by (rewrite HE, <- app_assoc; apply op_nocall, in3; auto).
    eapply plus_more with (h1 := HChain 5 [o] [ex_term e]) (h2 := HChain 5 (link_ops ls) (link_terms ls)).
    + apply step_chain1; [apply comparison_op; exact HO|lia|eapply print_nonempty; eauto|eapply print_gapfree; eauto|apply nocall_gapfree; exact HF2|].
      eapply reads_prec; [exact IH|exact N1|lia|eapply print_nonempty; eauto|exact HF2|].
      rewrite HE, <- app_assoc. apply op_stops; [apply in3; auto|destruct (chain_next o2 HO2) as [_ N]; rewrite level_oprec, N; lia|apply HG].
    + apply IHs; assumption.
    + intros l1 l2 H1 H2. exact (performs_chain_app _ _ _ _ _ _ _ _ H1 H2).
  - intros w. exists None. repeat split; auto. discriminate.
  - intros w e u HP IH. exists (Some (u, ex_term e)). split; [reflexivity|]. split; [reflexivity|]. split.
    + intros c u0 tm E. injection E as -> _. destruct (print_first _ _ _ HP) as (c' & u' & E & HC). injection E as -> ->. exact HC.
    + intros R HC. exact (top_ok 0 e u R HP IH HC).
  - intros. apply rep_nil.
  - intros e u es us HP IH HM IHm f k c R HI HC. specialize (IHm f k c R HI HC).
    destruct (top_ok 0 e u (us ++ c :: R) HP IH) as (T1 & T2 & T3).
    { eapply rep_closer; [exact IHm|]. apply cl_char. cbn in HC |- *. tauto. }
    apply (rep_more _ _ _ (B ", " ++ u) us (map ex_term es) [ex_term e]); [eexists; reflexivity| | |exact IHm].
    + intros t. apply step_comma; [exact HI|exact T1|exact T2|destruct us; discriminate|exact T3].
    + intros _ t. apply stop_comma. exact HC.
  - intros. apply rep_nil.
  - intros v e u es us HV HP IH HM IHm R. specialize (IHm R).
    destruct (top_ok 0 e u (us ++ "}"%char :: R) HP IH) as (T1 & T2 & T3).
    { eapply rep_closer; [exact IHm|]. apply cl_char. cbn. tauto. }
    apply (rep_more _ _ _ (B ", " ++ name_text v ++ B ": " ++ u) us _ [T T_PROP_NAME [TStr v]; ex_term e]); [eexists; reflexivity| | |exact IHm].
    + intros t. apply step_entry; [exact HV|exact T1|exact T2|destruct us; discriminate|exact T3].
    + intros _ t. apply stop_entry.
  - intros c r u w HP IH HQ IHq f t R HF HC.
    destruct (top_ok 0 c u (B "THEN " ++ w ++ "E"%char :: R) HP IH ltac:(apply cl_word; cbn; tauto)) as (T1 & T2 & T3).
    destruct (top_ok 0 r w ("E"%char :: R) HQ IHq HC) as (S1 & S2 & S3).
    apply seq_one; [|apply stop_alternative]. apply step_alternative; auto. discriminate.
  - intros c r u w es us HP IH HQ IHq HM IHm f t R HF HC. destruct (alts_when _ _ HM) as (us' & ->).
    destruct (top_ok 0 c u (B "THEN " ++ w ++ (B "WHEN " ++ us') ++ "E"%char :: R) HP IH ltac:(apply cl_word; cbn; tauto)) as (T1 & T2 & T3).
    destruct (top_ok 0 r w ((B "WHEN " ++ us') ++ "E"%char :: R) HQ IHq) as (S1 & S2 & S3).
    { rewrite <- app_assoc. apply cl_word. cbn. tauto. }
    apply (seq_more col off inp f 1 t alternative _ _ _ [ex_term c; ex_term r]); [|apply IHm; assumption]. apply step_alternative; auto. discriminate.
Qed.
End Print.
