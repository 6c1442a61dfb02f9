(** * What the rules of statements take: words, names and repetitions *)
From Coq Require Import List Bool Arith Ascii String ZArith Lia Permutation.
From Verif Require Import Peg PegProofs PegThunks QuickModel QuickSpec QuickProofs CypherSyntax CypherGrammar OperModel ErrModel
  CypherMatch AstTypes AstModel CypherBuild CypherExec CypherParse CypherRun CypherRound CypherSpec
  NodeFacts NodeHeld FlowSound FlowRun SafeProofs TraceSpec TraceProofs LexSpec LexProofs TermSpec Forward ForwardExec ForwardLex
  ForwardStep ForwardAtom ForwardExpr ForwardName ForwardNum ForwardPat ForwardForm ExprSpec ForwardPrint StmtSpec.
Import ListNotations.
Open Scope peg_scope.
Opaque parse_one cfuel.
Strategy expand [crun].

(** ** Where a text begins with one of some words *)
Definition begins (ws : list bytes) (R : bytes) : Prop := exists w R', In w ws /\ R = w ++ R'.
Lemma begins_more : forall ws ws' R, begins ws R -> incl ws ws' -> begins ws' R.
Proof. intros ws ws' R (w & R' & H & ->) HI. exists w, R'. auto. Qed.
Lemma begins_with : forall ws w R, In w ws -> begins ws (w ++ R).
Proof. intros ws w R H. exists w, R. auto. Qed.

(** the word, of which the last byte is only looked at *)
Definition word_toks (w : bytes) : list tok := map Kn (removelast w) ++ [Ho 9 (last w " "%char)].
Lemma text_known : forall r w l, text r (map Kn w ++ l) = w ++ text r l.
Proof. intros r w l. unfold text. rewrite map_app || idtac. rewrite flat_map_app. f_equal. induction w as [|c w IH]; cbn; [reflexivity|f_equal; exact IH]. Qed.
Lemma word_text : forall w R, w <> [] -> text (many [] R) (word_toks w) = w ++ R.
Proof.
  intros w R H. unfold word_toks. rewrite text_known. rewrite (app_removelast_last " "%char H) at 3. rewrite <- app_assoc. f_equal.
  cbn. rewrite app_nil_r. reflexivity.
Qed.

(** tables of facts about holes at the end of what is known: which rule, at which holes (none given: at any), what it does;
    and the same for repetitions *)
Definition fact_tab (tab : list (rule * list nat * verdict)) (reps : list (list nat * verdict)) : cexp -> list tok -> verdict :=
  let fits i (l : list nat) := match l with [] => true | _ => existsb (Nat.eqb i) l end in
  tight (fun e w =>
    match w with
    | [Ho i _] =>
        match e with
        | PRule r => match find (fun x => fits i (snd (fst x)) && Nat.eqb (rule_idx (fst (fst x))) (rule_idx r)) tab with
                     | Some (_, _, v) => v
                     | None => FNone
                     end
        | PStar _ | PPlus _ => match find (fun x => fits i (fst x)) reps with Some (_, v) => v | None => FNone end
        | _ => FNone
        end
    | _ => FNone
    end).

Ltac run_grow :=
  intros;
  lazymatch goal with |- exists pv sb hp ret fr hs gs, ?x = _ /\ _ =>
    let r := eval vm_compute in x in
    lazymatch r with
    | Some (mkx [?fr] ?ret _ ?hs _ ?pv _ ?sb _ _ ?hp) =>
        let hs' := eval vm_compute in (map Nat.pred hs) in
        exists pv, sb, hp, ret, fr, hs'; eexists; split; [vm_cast_no_check (eq_refl r)|];
        split; [reflexivity|]; split; [repeat constructor; cbn [In]; intuition discriminate|];
        split; [repeat constructor|cbn [List.concat app]; rewrite ?app_nil_r; reflexivity]
    | _ => fail "execution" r
    end
  end.

Section Stmt.
Variables (col : coloring) (off : position) (inp : bytes).
Notation runc := (run CG (get_of inp) (cprun col off)).
Notation vis := (visits col off inp).
Notation cst := (pst action cuser).
Notation performs := (performs inp).
Notation takes := (takes col off inp).
Notation refuses := (refuses col off inp).

Lemma grow_ok : forall rest_of eff tr n ws ts, sets_in eff ws tr 0 = true ->
  (forall sl tf (cf : list term -> list oper -> list oper * list oper) g ops, exists pv sb hp ret fr hs gs,
     texec eff sl tf cf tr (x_grow n g ops) = Some (mkx [fr] ret [] (map S hs) (map S hs) pv ops sb None false hp) /\
     List.length fr = n /\ NoDup hs /\ Forall2 (fun h g => nth_error hp (S h) = Some g) hs gs /\ List.concat gs = ts) ->
  forall l, traced inp rest_of (fun i => performs (eff i)) tr l -> performs (HGrow n ws ts) l.
Proof. intros rest_of eff tr n ws ts HS H. apply grow_performs; [exact HS|]. intros g ops. apply H. Qed.
Lemma none_ok : forall rest_of (eff : nat -> heff) l, traced inp rest_of (fun i => performs (eff i)) [] l -> performs HNone l.
Proof. intros rest_of eff l H. inversion H; subst. apply performs_none. Qed.

(** ** Refusals *)
Definition stops_at (r : rule) (w : bytes) : Prop :=
  w <> [] /\ forall t, exists t', trun (tight nofact) 60 (PRule r) (word_toks w) t = TFail t' [] /\ t_prs t' = t_prs t.
Lemma refuse_at : forall r ws R, Forall (stops_at r) ws -> begins ws R -> forall t, refuses t (PRule r) R.
Proof.
  intros r ws R H (w & R' & HI & ->) t. rewrite Forall_forall in H. destruct (H w HI) as [HN HS]. destruct (HS t) as (t' & H1 & H2).
  rewrite <- (word_text w R' HN). eapply (refuse_of col off inp (many [] R') (effs [])); [exact H1|exact H2|apply Forall_nil].
Qed.

(** ** Repetitions *)
Lemma star_none : forall t x R n ws, refuses t x R -> takes t (PStar x) [] R (HGrow n ws []).
Proof.
  intros t x R n ws H m s HH HS. destruct m as [|m]; [exact I|]. cbn [Peg.run visits]. specialize (H m s HH HS).
  destruct (runc m x s) as [s1|s1| |]; auto; [contradiction|]. split; [exact HH|]. split; [exact H|]. split; [|constructor].
  exists []. split; [reflexivity|]. intros e a a' b bs HE Hex HB fr fs HF HL. cbn in Hex. injection Hex as <-.
  split; [unfold kept; auto|]. split; [reflexivity|]. exists [], fr. rewrite grow_nil. repeat split; auto; constructor.
Qed.
Lemma star_more : forall t x u1 u2 R n ws t1 t2, takes t x u1 (u2 ++ R) (HGrow n ws t1) -> takes (mkt None (t_prs t)) (PStar x) u2 R (HGrow n ws t2) ->
  takes t (PStar x) (u1 ++ u2) R (HGrow n ws (t1 ++ t2)).
Proof.
  intros t x u1 u2 R n ws t1 t2 H1 H2 m s HH HS. destruct m as [|m]; [exact I|]. cbn [Peg.run visits].
  rewrite <- app_assoc in HH. specialize (H1 m s HH HS). destruct (runc m x s) as [s1|s1| |]; auto; [|contradiction].
  destruct H1 as (T1 & T2 & (l1 & L1 & P1) & T4). specialize (H2 m s1 T1 ltac:(split; [exact T2|exact I])). cbn [t_prs] in H2.
  destruct (runc m (PStar x) s1) as [s3|s3| |]; auto. destruct H2 as (U1 & U2 & (l2 & L2 & P2) & U4).
  split; [exact U1|]. split; [exact U2|]. split; [|apply plain_app; assumption].
  exists (l1 ++ l2). split; [rewrite rev_app_distr, <- app_assoc, L2, L1; reflexivity|]. apply performs_grow_app; assumption.
Qed.
Lemma plus_star : forall t x u1 u2 R n ws t1 t2, takes t x u1 (u2 ++ R) (HGrow n ws t1) -> takes (mkt None (t_prs t)) (PStar x) u2 R (HGrow n ws t2) ->
  takes t (PPlus x) (u1 ++ u2) R (HGrow n ws (t1 ++ t2)).
Proof.
  intros t x u1 u2 R n ws t1 t2 H1 H2 m s HH HS. destruct m as [|m]; [exact I|]. cbn [Peg.run visits].
  rewrite <- app_assoc in HH. specialize (H1 m s HH HS). destruct (runc m x s) as [s1|s1| |]; auto.
  destruct H1 as (T1 & T2 & (l1 & L1 & P1) & T4). specialize (H2 m s1 T1 ltac:(split; [exact T2|exact I])). cbn [t_prs] in H2.
  destruct (runc m (PStar x) s1) as [s3|s3| |]; auto. destruct H2 as (U1 & U2 & (l2 & L2 & P2) & U4).
  split; [exact U1|]. split; [exact U2|]. split; [|apply plain_app; assumption].
  exists (l1 ++ l2). split; [rewrite rev_app_distr, <- app_assoc, L2, L1; reflexivity|]. apply performs_grow_app; assumption.
Qed.

Definition comma_of (k : nat) (r : rule) : cexp := PRule R_COMMA ⋅ PRule R_sp ⋅ bind k r ⋅ PAct (TDo [SSeqAdd (AVar k)]).
Definition chain_of (k : nat) (r : rule) : cexp := bind k r ⋅ PAct (TDo [SSeqAdd (AVar k)]).
Definition fact_rule (c : ascii) : cexp -> list tok -> verdict := tight (fun e w =>
  match w with [Ho 1 _] => match e with PRule _ => FTake 1 [Ho 9 c] | _ => FNone end | _ => FNone end).
Definition fact_no : cexp -> list tok -> verdict := tight (fun e w =>
  match w with [Ho 9 _] => match e with PRule _ => FFail | _ => FNone end | _ => FNone end).


Lemma no_chain : forall k r t R, R <> [] -> refuses t (PRule r) R -> refuses t (chain_of k r) R.
Proof.
  intros k r t R HR H. destruct R as [|c R]; [contradiction|].
  replace (c :: R) with (text (many [] R) [Ho 9 c]) by (text_; reflexivity).
  eapply (refuse_of col off inp (many [] R) (effs []) fact_no 60); [run_fail|reflexivity|].
  obs_ ltac:(apply ob_refuse; text_; exact H).
Qed.
Lemma no_comma : forall k r t R, R <> [] -> refuses t (PRule R_COMMA) R -> refuses t (comma_of k r) R.
Proof.
  intros k r t R HR H. destruct R as [|c R]; [contradiction|].
  replace (c :: R) with (text (many [] R) [Ho 9 c]) by (text_; reflexivity).
  eapply (refuse_of col off inp (many [] R) (effs []) fact_no 60); [run_fail|reflexivity|].
  obs_ ltac:(apply ob_refuse; text_; exact H).
Qed.
Lemma chain_one : forall n k r t u R tm, In (n, k) [(3, 1); (4, 3); (3, 2); (2, 1)] -> u <> [] -> R <> [] ->
  (forall t', takes t' (PRule r) u R (HNode tm)) -> takes t (chain_of k r) u R (HGrow n [k] [tm]).
Proof.
  intros n k r t u R tm HI HU HR H. destruct u as [|c1 u1]; [contradiction|]. destruct R as [|c R]; [contradiction|].
  repeat (destruct HI as [HI|HI]; [injection HI as <- <-|]); [..|contradiction].
  all: (eapply (take_of col off inp (many [[]; u1 ++ c :: R] R) (effs [HNone; HNode tm]) (fact_rule c) 60 _ [Ho 1 c1] t);
    [run_trun|reflexivity| |apply grow_ok; [reflexivity|run_grow]|text_; reflexivity|text_; reflexivity];
    obs_ ltac:(eapply ob_take; [cbn [effs nth]; text_; apply H|text_; reflexivity])).
Qed.
Lemma comma_one : forall n k r t u R tm, In (n, k) [(1, 0); (3, 0); (4, 1); (4, 2); (2, 1)] -> u <> [] -> R <> [] -> gapfree (u ++ R) ->
  (forall t', takes t' (PRule r) u R (HNode tm)) -> takes t (comma_of k r) (B ", " ++ u) R (HGrow n [k] [tm]).
Proof.
  intros n k r t u R tm HI HU HR HG H. destruct u as [|c1 u1]; [contradiction|]. destruct R as [|c R]; [contradiction|].
  repeat (destruct HI as [HI|HI]; [injection HI as <- <-|]); [..|contradiction].
  all: (eapply (take_of col off inp (many [[]; u1 ++ c :: R] R) (effs [HNone; HNode tm]) (fact_rule c) 60 _ (map Kn (B ", ") ++ [Ho 1 c1]) t);
    [run_trun|reflexivity| |apply grow_ok; [reflexivity|run_grow]|text_; reflexivity|text_; reflexivity];
    obs_ ltac:(eapply ob_take; [cbn [effs nth]; text_; apply H|text_; reflexivity])).
Qed.

(** a rule that takes the texts [P], in front of [ok] *)
Definition element {A : Type} (r : rule) (P : A -> bytes -> Prop) (f : A -> term) (ok : bytes -> Prop) : Prop :=
  forall x u R, P x u -> ok R -> u <> [] /\ gapfree (u ++ R) /\ forall t, takes t (PRule r) u R (HNode (f x)).
Lemma commas_take : forall A r (P : A -> bytes -> Prop) f ok n k xs us R, In (n, k) [(1, 0); (3, 0); (4, 1); (4, 2); (2, 1)] ->
  element r P f ok -> (forall R', ok (B ", " ++ R')) -> commas P xs us -> ok R -> R <> [] -> (forall t, refuses t (PRule R_COMMA) R) ->
  forall t, takes t (PStar (comma_of k r)) us R (HGrow n [k] (map f xs)).
Proof.
  intros A r P f ok n k xs us R HI HE HK H HR HN HC. induction H as [|x u xs us HP H IH]; intros t.
  - apply star_none. apply no_comma; [exact HN|apply HC].
  - assert (HO : ok (us ++ R) /\ us ++ R <> []) by (destruct H; [split; assumption|split; [cbn [app]; rewrite <- !app_assoc; apply HK|discriminate]]).
    destruct HO as [HO HO']. destruct (HE x u (us ++ R) HP HO) as (E1 & E2 & E3).
    apply (star_more t _ (B ", " ++ u) us R n [k] [f x] (map f xs)); [|apply IH]. apply comma_one; assumption.
Qed.
Lemma chained_take : forall A r (P : A -> bytes -> Prop) f ok n k xs us R, In (n, k) [(3, 1); (4, 3); (3, 2); (2, 1)] ->
  element r P f ok -> (forall x u R', P x u -> ok (u ++ R')) -> chained P xs us -> ok R -> R <> [] -> (forall t, refuses t (PRule r) R) ->
  forall t, takes t (PStar (chain_of k r)) us R (HGrow n [k] (map f xs)).
Proof.
  intros A r P f ok n k xs us R HI HE HK H HR HN HC. induction H as [|x u xs us HP H IH]; intros t.
  - apply star_none. apply no_chain; [exact HN|apply HC].
  - assert (HO : ok (us ++ R)) by (destruct H; [assumption|rewrite <- !app_assoc; eapply HK; eauto]).
    destruct (HE x u (us ++ R) HP HO) as (E1 & E2 & E3).
    apply (star_more t _ u us R n [k] [f x] (map f xs)); [|apply IH]. apply chain_one; try assumption.
    destruct us; [exact HN|discriminate].
Qed.
Lemma chained_plus : forall A r (P : A -> bytes -> Prop) f ok n k xs us R, In (n, k) [(3, 1); (4, 3); (3, 2); (2, 1)] -> xs <> [] ->
  element r P f ok -> (forall x u R', P x u -> ok (u ++ R')) -> chained P xs us -> ok R -> R <> [] -> (forall t, refuses t (PRule r) R) ->
  forall t, takes t (PPlus (chain_of k r)) us R (HGrow n [k] (map f xs)).
Proof.
  intros A r P f ok n k xs us R HI HX HE HK H HR HN HC t. destruct H as [|x u xs us HP H]; [congruence|].
  assert (HO : ok (us ++ R)) by (destruct H; [assumption|rewrite <- !app_assoc; eapply HK; eauto]).
  destruct (HE x u (us ++ R) HP HO) as (E1 & E2 & E3).
  apply (plus_star t _ u us R n [k] [f x] (map f xs)); [|eapply chained_take; eauto]. apply chain_one; try assumption.
  destruct us; [exact HN|discriminate].
Qed.
End Stmt.
