(** * What the rules of expressions take: a parenthesis that does not start a pattern *)
From Coq Require Import List Bool Arith Ascii String ZArith Lia Permutation.
From Verif Require Import Peg PegProofs PegThunks QuickModel QuickSpec QuickProofs CypherSyntax CypherGrammar OperModel ErrModel
  CypherMatch AstTypes AstModel CypherBuild CypherExec CypherParse CypherRun CypherRound CypherSpec
  NodeFacts NodeHeld FlowSound FlowRun SafeProofs TraceSpec TraceProofs LexSpec LexProofs TermSpec Forward ForwardExec ForwardLex
  ForwardStep ForwardAtom ForwardName.
Import ListNotations.
Open Scope peg_scope.
Opaque parse_one cfuel.
Strategy expand [crun].

(** the bytes that start an operator in the middle or at the end of an expression, or the arguments of a function *)
Definition op_chars : bytes := B "AOXICSE=<>+-*/%^.[(".
(** the bytes that start an expression that is not a node pattern *)
Definition free_chars : bytes := B "'""(-+0123456789[".
(** the bytes that start an expression, but for parameters and maps *)
Definition word_chars : bytes := free_chars ++ B "`NtfnASFERC".
Definition first_chars : bytes := word_chars ++ B "${".
Definition words : list bytes := [B "true "; B "false "; B "null "].
Definition over_words : list bytes := [B "FILTER "; B "EXTRACT "; B "ALL "; B "ANY "; B "NONE "; B "SINGLE "; B "REDUCE "].

(** the start of an expression that, put in parentheses, does not look like a node pattern *)
Inductive lead : bytes -> Prop :=
| ld_free : forall c u, In c free_chars -> lead (c :: u)
| ld_ident : forall v c u, ~ In "`"%char v -> In c op_chars -> gapfree (c :: u) -> lead (bq v ++ B " " ++ c :: u)
| ld_param : forall v c u, ~ In "`"%char v -> In c op_chars -> gapfree (c :: u) -> lead (B "$" ++ bq v ++ B " " ++ c :: u)
| ld_word : forall w c u, In w words -> In c op_chars -> gapfree (c :: u) -> lead (w ++ c :: u)
| ld_not : forall c u, In c word_chars -> lead (B "NOT " ++ c :: u)
| ld_not_param : forall v c u, ~ In "`"%char v -> In c op_chars -> gapfree (c :: u) -> lead (B "NOT $" ++ bq v ++ B " " ++ c :: u)
| ld_over : forall w u, In w over_words -> lead (w ++ B "( " ++ u)
| ld_case : forall c u, In c (word_chars ++ B "W") -> lead (B "CASE " ++ c :: u)
| ld_case_param : forall v c u, ~ In "`"%char v -> In c (op_chars ++ B "W") -> gapfree (c :: u) ->
    lead (B "CASE $" ++ bq v ++ B " " ++ c :: u).
(** not the start of a path *)
Inductive nopath : bytes -> Prop :=
| np_char : forall c u, In c (B "'""-+0123456789[`NtfnASFERC${") -> nopath (c :: u)
| np_paren : forall u, lead u -> nopath (B "( " ++ u).
(** after a name, and not part of a comprehension *)
Inductive follow : bytes -> Prop :=
| fo_char : forall c u, In c (B "AOXCSE<>+-*%^.[(,]") -> follow (c :: u)
| fo_div : forall u, follow (B "/ " ++ u)
| fo_is : forall u, follow (B "IS" ++ u)
| fo_regex : forall u, follow (B "=~" ++ u)
| fo_eq : forall u, nopath u -> follow (B "= " ++ u).
(** the start of the first element of a list that is not a comprehension *)
Inductive nocomp : bytes -> Prop :=
| nl_char : forall c u, In c (B "'""-+0123456789[${") -> nocomp (c :: u)
| nl_paren : forall u, lead u -> nocomp (B "( " ++ u)
| nl_ident : forall v u, ~ In "`"%char v -> follow u -> nocomp (bq v ++ B " " ++ u)
| nl_word : forall w u, In w words -> follow u -> nocomp (w ++ u)
| nl_over : forall w u, In w over_words -> nocomp (w ++ B "( " ++ u)
| nl_op : forall w c u, In w [B "NOT "; B "CASE "] -> In c (first_chars ++ B "W") -> nocomp (w ++ c :: u).

Lemma gapfree_more : forall c u R, gapfree (c :: u) -> gapfree (c :: u ++ R).
Proof. intros c u R [(? & ? & E & N)|(? & E)]; injection E as -> ->; [left|right]; cbn; eauto. Qed.
Ltac flat_ := unfold bq; cbn [app B list_ascii_of_string]; rewrite <- ?app_assoc; cbn [app]; rewrite <- ?app_assoc; reflexivity.
Lemma lead_more : forall u R, lead u -> lead (u ++ R).
Proof.
  intros u R H. destruct H as [c u HC|v c u HV HC HG|v c u HV HC HG|w c u HW HC HG|c u HC|v c u HV HC HG|w u HW|c u HC|v c u HV HC HG].
  - apply (ld_free c (u ++ R)). exact HC.
  - replace ((bq v ++ B " " ++ c :: u) ++ R) with (bq v ++ B " " ++ c :: u ++ R) by flat_. apply ld_ident; auto using gapfree_more.
  - replace ((B "$" ++ bq v ++ B " " ++ c :: u) ++ R) with (B "$" ++ bq v ++ B " " ++ c :: u ++ R) by flat_. apply ld_param; auto using gapfree_more.
  - rewrite <- app_assoc. apply (ld_word w c (u ++ R)); auto using gapfree_more.
  - apply (ld_not c (u ++ R)). exact HC.
  - replace ((B "NOT $" ++ bq v ++ B " " ++ c :: u) ++ R) with (B "NOT $" ++ bq v ++ B " " ++ c :: u ++ R) by flat_. apply ld_not_param; auto using gapfree_more.
  - rewrite <- app_assoc. apply (ld_over w (u ++ R)). exact HW.
  - apply (ld_case c (u ++ R)). exact HC.
  - replace ((B "CASE $" ++ bq v ++ B " " ++ c :: u) ++ R) with (B "CASE $" ++ bq v ++ B " " ++ c :: u ++ R) by flat_. apply ld_case_param; auto using gapfree_more.
Qed.
Lemma nopath_more : forall u R, nopath u -> nopath (u ++ R).
Proof.
  intros u R [c u' HC|u' HU]; [apply (np_char c (u' ++ R)); exact HC|]. rewrite <- app_assoc. apply np_paren. apply lead_more. exact HU.
Qed.
Lemma follow_more : forall u R, follow u -> follow (u ++ R).
Proof.
  intros u R [c u' HC|u'|u'|u'|u' HU]; [apply (fo_char c (u' ++ R)); exact HC|apply (fo_div (u' ++ R))|apply (fo_is (u' ++ R))|apply (fo_regex (u' ++ R))|].
  rewrite <- app_assoc. apply fo_eq, nopath_more. exact HU.
Qed.
Lemma nocomp_more : forall u R, nocomp u -> nocomp (u ++ R).
Proof.
  intros u R [c u' HC|u' HU|v u' HV HU|w u' HW HU|w u' HW|w c u' HW HC].
  - apply (nl_char c (u' ++ R)). exact HC.
  - rewrite <- app_assoc. apply nl_paren, lead_more. exact HU.
  - rewrite <- !app_assoc. apply nl_ident; [exact HV|apply follow_more; exact HU].
  - rewrite <- app_assoc. apply nl_word; [exact HW|apply follow_more; exact HU].
  - rewrite <- app_assoc. apply (nl_over w (u' ++ R)). exact HW.
  - rewrite <- app_assoc. apply (nl_op w c (u' ++ R)); assumption.
Qed.

Section Pat.
Variables (col : coloring) (off : position) (inp : bytes).
Notation runc := (run CG (get_of inp) (cprun col off)).
Notation cst := (pst action cuser).
Notation performs := (performs inp).
Notation takes := (takes col off inp).
Notation refuses := (refuses col off inp).

Definition fact_sym : cexp -> list tok -> verdict := tight (fun e w =>
  match e, w with
  | PRule R_symbolic_name, (Ho 0 _) :: w' => FTake 0 w'
  | _, _ => FNone
  end).
Ltac each_ H := cbn in H; repeat (destruct H as [<-|H]; [|]); [..|contradiction].
Ltac sym_ HV := obs_ ltac:(eapply ob_take; [cbn [one_eff]; text_; apply take_backquoted; exact HV|text_; reflexivity]).
Definition path_rules : list rule := [R_pattern_expression; R_pattern_expression_path].
Ltac gap_more_ HG := destruct HG as [(? & ? & HG & ?)|(? & HG)]; injection HG as -> ->; [left|right]; cbn; eauto.
Ltac all_ H := cbn [In over_words words path_rules] in H; repeat (destruct H as [<-|H]; [|]); [..|contradiction].
Lemma no_pattern : forall t u R r, In r path_rules -> lead u -> refuses t (PRule r) (B "( " ++ u ++ R).
Proof.
  intros t u R r HR H. destruct H as [c u HC|v c u HV HC HG|v c u HV HC HG|w c u HW HC HG|c u HC|v c u HV HC HG|w u HW|c u HC|v c u HV HC HG].
  - replace (B "( " ++ (c :: u) ++ R) with (text (two [] (u ++ R)) [Kn "("%char; Kn " "%char; Ho 9 c]) by (text_; reflexivity).
    all_ HR; each_ HC; (eapply (refuse_of col off inp (two [] (u ++ R)) (one_eff HNone) fact_sym 100); [run_fail|reflexivity|obs_ fail]).
  - assert (HG' : gapfree (c :: u ++ R)) by gap_more_ HG.
    replace (B "( " ++ (bq v ++ B " " ++ c :: u) ++ R) with (text (two (v ++ ["`"%char]) (u ++ R)) [Kn "("%char; Kn " "%char; Ho 0 "`"%char; Kn " "%char; Ho 9 c])
      by (unfold bq; text_; reflexivity).
    all_ HR; each_ HC; (eapply (refuse_of col off inp (two (v ++ ["`"%char]) (u ++ R)) (one_eff (HAppend v)) fact_sym 100); [run_fail|reflexivity|sym_ HV]).
  - assert (HG' : gapfree (c :: u ++ R)) by gap_more_ HG.
    replace (B "( " ++ (B "$" ++ bq v ++ B " " ++ c :: u) ++ R) with (text (two (v ++ ["`"%char]) (u ++ R)) [Kn "("%char; Kn " "%char; Kn "$"%char; Ho 0 "`"%char; Kn " "%char; Ho 9 c])
      by (unfold bq; text_; reflexivity).
    all_ HR; each_ HC; (eapply (refuse_of col off inp (two (v ++ ["`"%char]) (u ++ R)) (one_eff (HAppend v)) fact_sym 100); [run_fail|reflexivity|sym_ HV]).
  - assert (HG' : gapfree (c :: u ++ R)) by gap_more_ HG.
    replace (B "( " ++ (w ++ c :: u) ++ R) with (text (two [] (u ++ R)) (Kn "("%char :: Kn " "%char :: map Kn w ++ [Ho 9 c]))
      by (clear - HW; cbn in HW; repeat (destruct HW as [<-|HW]; [text_; reflexivity|]); contradiction).
    all_ HR; all_ HW; each_ HC; (eapply (refuse_of col off inp (two [] (u ++ R)) (one_eff HNone) fact_sym 100); [run_fail|reflexivity|obs_ fail]).
  - replace (B "( " ++ (B "NOT " ++ c :: u) ++ R) with (text (two [] (u ++ R)) [Kn "("%char; Kn " "%char; Kn "N"; Kn "O"; Kn "T"; Kn " "; Ho 9 c]%char) by (text_; reflexivity).
    all_ HR; each_ HC; (eapply (refuse_of col off inp (two [] (u ++ R)) (one_eff HNone) fact_sym 100); [run_fail|reflexivity|obs_ fail]).
  - assert (HG' : gapfree (c :: u ++ R)) by gap_more_ HG.
    replace (B "( " ++ (B "NOT $" ++ bq v ++ B " " ++ c :: u) ++ R) with (text (two (v ++ ["`"%char]) (u ++ R))
      [Kn "("%char; Kn " "%char; Kn "N"; Kn "O"; Kn "T"; Kn " "; Kn "$"%char; Ho 0 "`"%char; Kn " "%char; Ho 9 c]%char)
      by (unfold bq; text_; reflexivity).
    all_ HR; each_ HC; (eapply (refuse_of col off inp (two (v ++ ["`"%char]) (u ++ R)) (one_eff (HAppend v)) fact_sym 100); [run_fail|reflexivity|sym_ HV]).
  - replace (B "( " ++ (w ++ B "( " ++ u) ++ R) with (text (two [] (" "%char :: u ++ R)) (Kn "("%char :: Kn " "%char :: map Kn w ++ [Ho 9 "("%char]))
      by (clear - HW; cbn [In over_words] in HW; repeat (destruct HW as [<-|HW]; [text_; reflexivity|]); contradiction).
    all_ HR; all_ HW; (eapply (refuse_of col off inp (two [] (" "%char :: u ++ R)) (one_eff HNone) fact_sym 100); [run_fail|reflexivity|obs_ fail]).
  - replace (B "( " ++ (B "CASE " ++ c :: u) ++ R) with (text (two [] (u ++ R)) (map Kn (B "( CASE ") ++ [Ho 9 c])) by (text_; reflexivity).
    all_ HR; each_ HC; (eapply (refuse_of col off inp (two [] (u ++ R)) (one_eff HNone) fact_sym 100); [run_fail|reflexivity|obs_ fail]).
  - assert (HG' : gapfree (c :: u ++ R)) by gap_more_ HG.
    replace (B "( " ++ (B "CASE $" ++ bq v ++ B " " ++ c :: u) ++ R) with (text (two (v ++ ["`"%char]) (u ++ R))
      (map Kn (B "( CASE $") ++ [Ho 0 "`"; Kn " "; Ho 9 c]%char))
      by (unfold bq; text_; reflexivity).
    all_ HR; each_ HC; (eapply (refuse_of col off inp (two (v ++ ["`"%char]) (u ++ R)) (one_eff (HAppend v)) fact_sym 100); [run_fail|reflexivity|sym_ HV]).
Qed.
Lemma no_path : forall t u R, nopath u -> refuses t (PRule R_pattern_expression_path) (u ++ R).
Proof.
  intros t u R H. destruct H as [c u HC|u HU]; [|rewrite <- app_assoc; apply no_pattern; [cbn; auto|exact HU]].
  replace ((c :: u) ++ R) with (text (two [] (u ++ R)) [Ho 9 c]) by (text_; reflexivity).
  each_ HC; (eapply (refuse_of col off inp (two [] (u ++ R)) (one_eff HNone) fact_sym 100); [run_fail|reflexivity|obs_ fail]).
Qed.

Definition fact_comp : cexp -> list tok -> verdict := tight (fun e w =>
  match e, w with
  | PRule R_symbolic_name, (Ho 0 _) :: w' => FTake 0 w'
  | PRule R_pattern_expression_path, (Ho 1 _) :: w' => FFail
  | _, _ => FNone
  end).
Definition comp_rules : list rule := [R_list_comprehension; R_pattern_comprehension].

(** what follows a name, as tokens *)
Lemma follow_toks : forall u R, follow u -> exists w rest, (forall r0, u ++ R = text (many [r0; rest] rest) w) /\ gapfree (u ++ R) /\
  ((exists c, w = [Ho 9 c] /\ In c (B "AOXCSE<>+-*/%^.[(,]")) \/ w = [Kn "I"; Ho 9 "S"]%char \/ w = [Kn "="; Ho 9 "~"]%char \/
   (exists c, w = [Kn "="; Kn " "; Ho 1 c]%char /\ nopath (c :: rest) /\ gapfree (c :: rest))).
Proof.
  intros u R H. destruct H as [c u HC|u|u|u|u HU].
  - exists [Ho 9 c], (u ++ R). split; [intros r0; text_; reflexivity|]. split.
    + left. exists c, (u ++ R). split; [reflexivity|]. intros K. cbn in K. destruct K as [<-|[<-|[<-|[<-|[<-|[]]]]]]; cbn in HC; intuition discriminate.
    + left. exists c. split; [reflexivity|]. cbn in HC |- *. tauto.
  - exists [Ho 9 "/"%char], (" "%char :: u ++ R). split; [intros r0; text_; reflexivity|]. split; [right; eexists; reflexivity|].
    left. eexists. split; [reflexivity|]. cbn. tauto.
  - exists [Kn "I"; Ho 9 "S"]%char, (u ++ R). split; [intros r0; text_; reflexivity|].
    split; [left; eexists; eexists; split; [reflexivity|cbn [In]; intuition discriminate]|]. auto.
  - exists [Kn "="; Ho 9 "~"]%char, (u ++ R). split; [intros r0; text_; reflexivity|].
    split; [left; eexists; eexists; split; [reflexivity|cbn [In]; intuition discriminate]|]. auto.
  - assert (K : exists c u', u = c :: u' /\ gapfree (c :: u' ++ R)).
    { destruct HU as [c u HC|u HU].
      - exists c, u. split; [reflexivity|]. left. exists c, (u ++ R). split; [reflexivity|].
        intros K. cbn in K. destruct K as [<-|[<-|[<-|[<-|[<-|[]]]]]]; cbn in HC; intuition discriminate.
      - exists "("%char, (" "%char :: u). split; [reflexivity|]. left. eexists; eexists; split; [reflexivity|cbn [In]; intuition discriminate]. }
    destruct K as (c & u' & -> & K2).
    exists [Kn "="; Kn " "; Ho 1 c]%char, (u' ++ R). split; [intros r0; text_; reflexivity|].
    split; [left; eexists; eexists; split; [reflexivity|cbn [In]; intuition discriminate]|]. right. right. right.
    exists c. split; [reflexivity|]. split; [|exact K2]. exact (nopath_more _ R HU).
Qed.
Ltac path_ HP := apply ob_refuse; text_; match goal with |- ForwardLex.refuses _ _ _ _ _ ?u => rewrite <- (app_nil_r u) end; apply no_path; exact HP.
Lemma text_kn : forall r c w, text r (Kn c :: w) = c :: text r w. Proof. reflexivity. Qed.
Lemma text_ho : forall r i c w, text r (Ho i c :: w) = c :: r i ++ text r w. Proof. reflexivity. Qed.
Lemma no_comp : forall t u R r, In r comp_rules -> nocomp u -> refuses t (PRule r) (B "[ " ++ u ++ R).
Proof.
  intros t u R r HR H. destruct H as [c u HC|u HU|v u HV HU|w u HW HU|w u HW|w c u HW HC].
  - replace (B "[ " ++ (c :: u) ++ R) with (text (many [] (u ++ R)) [Kn "["; Kn " "; Ho 9 c]%char) by (text_; reflexivity).
    all_ HR; each_ HC; (eapply (refuse_of col off inp _ (effs []) fact_comp 100); [run_fail|reflexivity|obs_ fail]).
  - replace (B "[ " ++ (B "( " ++ u) ++ R) with (text (many [[]; B " " ++ u ++ R] (B " " ++ u ++ R)) [Kn "["; Kn " "; Ho 1 "("]%char) by (text_; reflexivity).
    all_ HR; (eapply (refuse_of col off inp _ (effs []) fact_comp 100); [run_fail|reflexivity|]); [obs_ fail|].
    obs_ ltac:(path_ (np_paren _ (lead_more _ R HU))).
  - destruct (follow_toks u R HU) as (w & rest & HE & HG & K). specialize (HE (v ++ ["`"%char])).
    replace (B "[ " ++ (bq v ++ B " " ++ u) ++ R) with (text (many [v ++ ["`"%char]; rest] rest) (Kn "[" :: Kn " " :: Ho 0 "`" :: Kn " " :: w)%char)
      by (rewrite !text_kn, text_ho, !text_kn; unfold bq; cbn [many nth B list_ascii_of_string app]; rewrite <- !app_assoc; cbn [app]; do 6 f_equal; exact (eq_sym HE)).
    rewrite HE in HG. clear HE.
    destruct K as [(c & -> & HC)|[->|[->|(c & -> & HP & HG2)]]].
    + unfold text in HG. cbn [flat_map text1 many nth] in HG. rewrite app_nil_r in HG.
      all_ HR; each_ HC; (eapply (refuse_of col off inp _ (effs [HAppend v]) fact_comp 100); [run_fail|reflexivity|]);
      obs_ ltac:(eapply ob_take; [cbn [effs nth]; text_; apply take_backquoted; exact HV|text_; reflexivity]).
    + all_ HR; (eapply (refuse_of col off inp _ (effs [HAppend v]) fact_comp 100); [run_fail|reflexivity|]);
      obs_ ltac:(eapply ob_take; [cbn [effs nth]; text_; apply take_backquoted; exact HV|text_; reflexivity]).
    + all_ HR; (eapply (refuse_of col off inp _ (effs [HAppend v]) fact_comp 100); [run_fail|reflexivity|]);
      obs_ ltac:(eapply ob_take; [cbn [effs nth]; text_; apply take_backquoted; exact HV|text_; reflexivity]).
    + all_ HR; (eapply (refuse_of col off inp _ (effs [HAppend v]) fact_comp 100); [run_fail|reflexivity|]);
      obs_ ltac:(first [eapply ob_take; [cbn [effs nth]; text_; apply take_backquoted; exact HV|text_; reflexivity]|path_ HP]).
  - destruct (follow_toks u R HU) as (w0 & rest & HE & HG & K). specialize (HE []).
    replace (B "[ " ++ (w ++ u) ++ R) with (text (many [[]; rest] rest) (Kn "["%char :: Kn " "%char :: map Kn w ++ w0))
      by (clear - HE HW; cbn in HW; repeat (destruct HW as [<-|HW]; [cbn [app map B list_ascii_of_string]; rewrite !text_kn, HE; reflexivity|]); contradiction).
    rewrite HE in HG. clear HE.
    destruct K as [(c & -> & HC)|[->|[->|(c & -> & HP & HG2)]]].
    + unfold text in HG. cbn [flat_map text1 many nth] in HG. rewrite app_nil_r in HG.
      all_ HR; all_ HW; each_ HC; (eapply (refuse_of col off inp _ (effs []) fact_comp 100); [run_fail|reflexivity|]); obs_ fail.
    + all_ HR; all_ HW; (eapply (refuse_of col off inp _ (effs []) fact_comp 100); [run_fail|reflexivity|]); obs_ fail.
    + all_ HR; all_ HW; (eapply (refuse_of col off inp _ (effs []) fact_comp 100); [run_fail|reflexivity|]); obs_ fail.
    + all_ HR; all_ HW; (eapply (refuse_of col off inp _ (effs []) fact_comp 100); [run_fail|reflexivity|]); obs_ ltac:(path_ HP).
  - replace (B "[ " ++ (w ++ B "( " ++ u) ++ R) with (text (many [] (" "%char :: u ++ R)) (Kn "["%char :: Kn " "%char :: map Kn w ++ [Ho 9 "("%char]))
      by (clear - HW; cbn [In over_words] in HW; repeat (destruct HW as [<-|HW]; [text_; reflexivity|]); contradiction).
    all_ HR; all_ HW; (eapply (refuse_of col off inp _ (effs []) fact_comp 100); [run_fail|reflexivity|obs_ fail]).
  - replace (B "[ " ++ (w ++ c :: u) ++ R) with (text (many [] (u ++ R)) (Kn "["%char :: Kn " "%char :: map Kn w ++ [Ho 9 c]))
      by (clear - HW; cbn [In] in HW; repeat (destruct HW as [<-|HW]; [text_; reflexivity|]); contradiction).
    all_ HR; all_ HW; each_ HC; (eapply (refuse_of col off inp _ (effs []) fact_comp 100); [run_fail|reflexivity|obs_ fail]).
Qed.

(** no expression starts like this *)
Lemma refuse_first : forall t r c u, In r [R_DISTINCT; R_STAR; R_case_alternative] -> In c first_chars -> refuses t (PRule r) (c :: u).
Proof.
  intros t r c u HR HC. replace (c :: u) with (text (many [] u) [Ho 9 c]) by (text_; reflexivity).
  all_ HR; each_ HC; (eapply (refuse_of col off inp (many [] u) (effs []) fact_comp 100); [run_fail|reflexivity|obs_ fail]).
Qed.
End Pat.
