(** * What the rules of client commands take *)
From Coq Require Import List Bool Arith Ascii String ZArith Lia Permutation.
From Verif Require Import Peg PegProofs PegThunks QuickModel QuickSpec QuickProofs CypherSyntax CypherGrammar OperModel ErrModel
  CypherMatch AstTypes AstModel CypherBuild CypherExec CypherParse CypherRun CypherRound CypherLoop CypherInv CypherChain CypherSpec SafeSpec
  NodeFacts NodeHeld FlowSound FlowRun SafeProofs SkipProofs TraceSpec TraceProofs LexSpec LexProofs TermSpec Forward ForwardExec ForwardLex
  ForwardStep ForwardAtom ForwardExpr ForwardName ForwardNum ForwardPat ForwardForm ExprSpec ForwardPrint StmtSpec ForwardStmt ForwardClause
  ForwardItem ForwardPattern ForwardQuery ForwardCall ForwardQueries ForwardOption ForwardTop ForwardReturn CommandSpec.
Import ListNotations.
Open Scope peg_scope.
Opaque parse_one cfuel.
Strategy expand [crun].

(** ** What follows a word *)
Definition stops (R : bytes) : Prop := (exists b c R', (b = " "%char \/ b = "009"%char) /\ R = b :: c :: R') \/ (exists e R', ending e /\ R = e ++ R').
Ltac tail_toks R :=
  lazymatch R with
  | [] => constr:(@nil tok)
  | ?a :: ?r => match constr:(Set) with
                | _ => let _ := match constr:(Set) with _ => is_var a end in constr:([Ho 9 a])
                | _ => let w := tail_toks r in constr:(Kn a :: w)
                end
  end.
Ltac tail_rest R :=
  lazymatch R with
  | [] => constr:(@nil ascii)
  | ?a :: ?r => match constr:(Set) with
                | _ => let _ := match constr:(Set) with _ => is_var a end in constr:(r)
                | _ => tail_rest r
                end
  end.
Ltac tails_ H :=
  let c := fresh "c9" in let R' := fresh "R'" in let e := fresh "e" in let HE := fresh "HE" in
  let b := fresh "b" in
  destruct H as [(b & c & R' & [-> | ->] & ->)|(e & R' & HE & ->)];
  [| |destruct HE as [<-|[<-|[<-|[]]]]; destruct R' as [|c R']; cbn [app B list_ascii_of_string]].

Definition plain_word (w : bytes) : Prop := w <> [] /\ forall c, In c w -> ~ In c word_ends.
Lemma spells_plain : forall w, (forall c, In c w -> ~ In c word_ends) -> spells w w.
Proof. induction w as [|c w IH]; intros H; [apply sp_none|apply sp_plain; [apply H; left; reflexivity|apply IH; intros d Hd; apply H; right; exact Hd]]. Qed.
Lemma pw_plain : forall w, plain_word w -> prints_word w w.
Proof. intros w [H1 H2]. split; [exact H1|apply spells_plain, H2]. Qed.
Lemma pw_quoted : forall v u, quoted_text u v -> prints_word v u.
Proof.
  intros v u H. split; [destruct H as (q & b & _ & -> & _); discriminate|]. rewrite <- (app_nil_r v), <- (app_nil_r u).
  apply sp_quoted; [exact H|apply sp_none].
Qed.

Section Command.
Variables (col : coloring) (off : position) (inp : bytes).
Notation runc := (run CG (get_of inp) (cprun col off)).
Notation vis := (visits col off inp).
Notation cst := (pst action cuser).
Notation performs := (performs inp).
Notation takes := (takes col off inp).
Notation refuses := (refuses col off inp).
Notation here := (here inp).

(** ** Blanks on one line *)
Definition hsp1 : cexp := PStar (PRule R_HWS ∥ PRule R_block_comment).
Definition solid (R : bytes) : Prop := exists c R', R = c :: R' /\ ~ In c [" "; "009"; "/"]%char.
Lemma no_hws : forall R t, solid R -> refuses t (PRule R_HWS ∥ PRule R_block_comment : cexp) R.
Proof.
  intros R t (c & R' & -> & HC). replace (c :: R') with (text (many [[]; R'] []) [Ho 1 c]) by (cbn; rewrite app_nil_r; reflexivity).
  destruct c as [[] [] [] [] [] [] [] []]; try (exfalso; apply HC; cbn; tauto).
  all: eapply (refuse_of col off inp (many [[]; R'] []) (effs []) nofact 20); [run_fail|reflexivity|apply Forall_nil].
Qed.
Lemma take_hws : forall b R t, b = " "%char \/ b = "009"%char -> takes t (PRule R_HWS ∥ PRule R_block_comment : cexp) [b] R HNone.
Proof.
  intros b R t [-> | ->]; destruct R as [|c R'].
  all: lazymatch goal with |- ForwardLex.takes _ _ _ _ _ [?b] ?R _ => let w := tail_toks R in let R' := tail_rest R in
    eapply (take_of col off inp (many [] R') (effs []) nofact 40 _ (Kn b :: w) t);
    [run_trun|reflexivity|apply Forall_nil|apply none_ok; reflexivity|nrm_; reflexivity|nrm_; reflexivity] end.
Qed.
Lemma hsp1_some : forall g R t, blanks g -> solid R -> takes t hsp1 g R HNone.
Proof.
  intros g R t HG HR. apply (bytes_star col off inp _ (fun c => c = " "%char \/ c = "009"%char)); [|exact HG|intros t'; apply no_hws, HR].
  intros d R0 s Hd. apply take_hws, Hd.
Qed.
Lemma hsp_some : forall g R t, blanks g -> solid R -> takes t (PRule R_hsp) g R HNone.
Proof.
  intros g R t HG HR m s HH HS. destruct m as [|m]; [exact I|]. cbn [Peg.run visits]. pose proof (hsp1_some g R t HG HR m s HH HS) as K.
  change (CG R_hsp) with hsp1. destruct (runc m hsp1 s) as [s'|s'| |]; auto. destruct K as (K1 & K2 & K3 & K4).
  split; [exact K1|]. split; [exact K2|]. split; [exact K3|]. constructor; [reflexivity|exact K4].
Qed.
Lemma hsp_none : forall R t, solid R -> takes t (PRule R_hsp) [] R HNone.
Proof. intros R t HR. apply hsp_some; [intros c []|exact HR]. Qed.
(** ** Words *)
Definition not_word : cexp := PClass (B "'""") ∥ PRule R_WS ∥ PStr (B "//") ∥ PStr (B "/*") ∥ PChar "\"%char ∥ PRule R_SEMICOLON ∥ PRule R_EOF.
Definition word1 : cexp := PNot not_word ⋅ PDot.
Lemma word_free : forall c R t, ~ In c word_ends -> refuses t not_word (c :: R).
Proof.
  intros c R t HC. destruct R as [|c9 R'].
  - replace [c] with (text (many [] []) [Kn c]) by reflexivity.
    destruct c as [[] [] [] [] [] [] [] []]; try (exfalso; apply HC; cbn; tauto).
    all: eapply (refuse_of col off inp (many [] []) (effs []) nofact 20); [run_fail|reflexivity|apply Forall_nil].
  - replace (c :: c9 :: R') with (text (many [] R') [Kn c; Ho 9 c9]) by (cbn; rewrite ?app_nil_r; reflexivity).
    destruct c as [[] [] [] [] [] [] [] []]; try (exfalso; apply HC; cbn; tauto).
    all: eapply (refuse_of col off inp (many [] R') (effs []) nofact 20); [run_fail|reflexivity|apply Forall_nil].
Qed.
Lemma word_take : forall c R t, ~ In c word_ends -> takes t word1 [c] R HNone.
Proof.
  intros c R t HC m s HH HS. destruct m as [|[|m]]; [exact I|exact I|]. cbn [word1 Peg.run visits].
  pose proof (word_free c R t HC m s HH HS) as K. destruct (here_next inp _ _ _ HH) as [G1 G2].
  destruct (runc m not_word s) as [s1|s1| |]; auto. cbn [pos restore]. rewrite G1.
  split; [exact G2|]. split; [exact K|]. split; [exists []; split; [reflexivity|apply performs_none]|constructor].
Qed.
Lemma word_stop : forall R t, stops R -> refuses t word1 R.
Proof.
  intros R t H. tails_ H.
  all: lazymatch goal with |- ForwardLex.refuses _ _ _ _ _ ?R => let w := tail_toks R in let R' := tail_rest R in
    replace R with (text (many [] R') w) by (cbn; rewrite ?app_nil_r; reflexivity);
    eapply (refuse_of col off inp (many [] R') (effs []) nofact 20); [run_fail|reflexivity|apply Forall_nil] end.
Qed.
Lemma no_escape : forall c R t, ~ In c word_ends -> refuses t (PRule R_escaped_char) (c :: R).
Proof.
  intros c R t HC. replace (c :: R) with (text (many [[]; R] []) [Ho 1 c]) by (cbn; rewrite app_nil_r; reflexivity).
  destruct c as [[] [] [] [] [] [] [] []]; try (exfalso; apply HC; cbn; tauto).
  all: eapply (refuse_of col off inp (many [[]; R] []) (effs []) nofact 20); [run_fail|reflexivity|apply Forall_nil].
Qed.
Lemma no_semi : forall c R t, ~ In c word_ends -> refuses t (PStr (B "\;")) (c :: R).
Proof.
  intros c R t HC. replace (c :: R) with (text (many [[]; R] []) [Ho 1 c]) by (cbn; rewrite app_nil_r; reflexivity).
  destruct c as [[] [] [] [] [] [] [] []]; try (exfalso; apply HC; cbn; tauto).
  all: eapply (refuse_of col off inp (many [[]; R] []) (effs []) nofact 20); [run_fail|reflexivity|apply Forall_nil].
Qed.
Lemma no_unquoted : forall q R t, is_quote q -> refuses t (PRule R_unquoted) (q :: R).
Proof.
  intros q R t HQ. destruct R as [|c9 R'].
  - replace [q] with (text (many [] []) [Kn q]) by reflexivity.
    destruct HQ as [-> | ->]; (eapply (refuse_of col off inp (many [] []) (effs []) nofact 40); [run_fail|reflexivity|apply Forall_nil]).
  - replace (q :: c9 :: R') with (text (many [] R') [Kn q; Ho 9 c9]) by (cbn; rewrite ?app_nil_r; reflexivity).
    destruct HQ as [-> | ->]; (eapply (refuse_of col off inp (many [] R') (effs []) nofact 40); [run_fail|reflexivity|apply Forall_nil]).
Qed.

(** ** Rules that append *)
Lemma performs_append_app : forall v1 v2 l1 l2, performs (HAppend v1) l1 -> performs (HAppend v2) l2 -> performs (HAppend (v1 ++ v2)) (l1 ++ l2).
Proof.
  intros v1 v2 l1 l2 H1 H2 e a a' b bs HE Hex HB. rewrite CypherRound.exec_app in Hex. destruct (exec e l1 a) as [a1| | |] eqn:E1; cbn in Hex; try discriminate.
  pose proof (H1 e a a1 b bs HE E1 HB) as ((K1 & K2 & K3) & F1 & B1 & O1 & S1). rewrite HB in B1.
  pose proof (H2 e a1 a' b bs HE Hex B1) as ((L1 & L2 & L3) & F2 & B2 & O2 & S2).
  split; [split; [congruence|split; [congruence|lia]]|]. split; [congruence|]. split; [congruence|]. split; [congruence|].
  rewrite S2, S1, app_assoc. reflexivity.
Qed.
Lemma append_none : forall t x R, refuses t x R -> takes t (PStar x) [] R (HAppend []).
Proof.
  intros t x R H m s HH HS. destruct m as [|m]; [exact I|]. cbn [Peg.run visits]. specialize (H m s HH HS).
  destruct (runc m x s) as [s1|s1| |]; auto; [contradiction|]. split; [exact HH|]. split; [exact H|]. split; [|constructor].
  exists []. split; [reflexivity|]. intros e a a' b bs HE Hex HB. cbn in Hex. injection Hex as <-.
  split; [unfold kept; auto|]. rewrite app_nil_r. auto.
Qed.
Lemma append_more : forall t x u1 u2 R v1 v2, takes t x u1 (u2 ++ R) (HAppend v1) -> (forall t, takes t (PStar x) u2 R (HAppend v2)) ->
  takes t (PStar x) (u1 ++ u2) R (HAppend (v1 ++ v2)).
Proof.
  intros t x u1 u2 R v1 v2 H1 H2 m s HH HS. destruct m as [|m]; [exact I|]. cbn [Peg.run visits].
  rewrite <- app_assoc in HH. specialize (H1 m s HH HS). destruct (runc m x s) as [s1|s1| |]; auto; [|contradiction].
  destruct H1 as (T1 & T2 & (l1 & L1 & P1) & T4). specialize (H2 (mkt None (t_prs t)) m s1 T1 ltac:(split; [exact T2|exact I])). cbn [t_prs] in H2.
  destruct (runc m (PStar x) s1) as [s3|s3| |]; auto. destruct H2 as (U1 & U2 & (l2 & L2 & P2) & U4).
  split; [exact U1|]. split; [exact U2|]. split; [|apply plain_app; assumption].
  exists (l1 ++ l2). split; [rewrite rev_app_distr, <- app_assoc, L2, L1; reflexivity|]. apply performs_append_app; assumption.
Qed.
Lemma append_plus : forall t x u1 u2 R v1 v2, takes t x u1 (u2 ++ R) (HAppend v1) -> (forall t, takes t (PStar x) u2 R (HAppend v2)) ->
  takes t (PPlus x) (u1 ++ u2) R (HAppend (v1 ++ v2)).
Proof.
  intros t x u1 u2 R v1 v2 H1 H2 m s HH HS. destruct m as [|m]; [exact I|]. cbn [Peg.run visits].
  rewrite <- app_assoc in HH. specialize (H1 m s HH HS). destruct (runc m x s) as [s1|s1| |]; auto.
  destruct H1 as (T1 & T2 & (l1 & L1 & P1) & T4). specialize (H2 (mkt None (t_prs t)) m s1 T1 ltac:(split; [exact T2|exact I])). cbn [t_prs] in H2.
  destruct (runc m (PStar x) s1) as [s3|s3| |]; auto. destruct H2 as (U1 & U2 & (l2 & L2 & P2) & U4).
  split; [exact U1|]. split; [exact U2|]. split; [|apply plain_app; assumption].
  exists (l1 ++ l2). split; [rewrite rev_app_distr, <- app_assoc, L2, L1; reflexivity|]. apply performs_append_app; assumption.
Qed.
Lemma take_left : forall t (x y : cexp) u R h, takes t x u R h -> takes t (x ∥ y) u R h.
Proof.
  intros t x y u R h H m s HH HS. destruct m as [|m]; [exact I|]. cbn [Peg.run visits]. specialize (H m s HH HS).
  destruct (runc m x s) as [s1|s1| |]; auto. contradiction.
Qed.
Lemma take_right : forall t (x y : cexp) u R h, refuses t x (u ++ R) -> (forall t, takes t y u R h) -> takes t (x ∥ y) u R h.
Proof.
  intros t x y u R h H1 H2 m s HH HS. destruct m as [|m]; [exact I|]. cbn [Peg.run visits]. specialize (H1 m s HH HS).
  destruct (runc m x s) as [s1|s1| |]; auto; [contradiction|].
  exact (H2 (mkt None (t_prs t)) m (restore s s1) HH ltac:(split; [exact H1|exact I])).
Qed.
Lemma take_unquoted : forall t u R h, takes t (PPlus unquoted_body) u R h -> takes t (PRule R_unquoted) u R h.
Proof.
  intros t u R h H m s HH HS. destruct m as [|m]; [exact I|]. cbn [Peg.run visits]. specialize (H m s HH HS).
  change (CG R_unquoted) with (PPlus unquoted_body). destruct (runc m (PPlus unquoted_body) s) as [s'|s'| |]; auto. destruct H as (K1 & K2 & K3 & K4).
  split; [exact K1|]. split; [exact K2|]. split; [exact K3|]. constructor; [reflexivity|exact K4].
Qed.

(** ** Parts of words *)
Lemma take_escape : forall c x R t, escape c = Some x -> takes t (PRule R_escaped_char) ["\"%char; c] R (HAppend [x]).
Proof.
  intros c x R t HX. apply light_takes; [reflexivity|reflexivity|exists (Some 0); split; [reflexivity|auto]| |].
  - intros m s s' HH H. destruct (run_esc _ _ _ _ _ _ H) as (c' & x' & E & L).
    assert (K : c' = c). { destruct L as [[_ O] _]. destruct HH as [HH _]. rewrite HH in O. cbn in O. injection O as -> _. reflexivity. }
    subst c'. rewrite HX in E. injection E as <-. exact L.
  - intros m s s' [HH _] H. cbn [app] in HH.
    assert (K0 : LexProofs.at_ inp s 0 "\"%char) by (unfold LexProofs.at_; rewrite Nat.add_0_r; eapply skipn_nth; exact HH).
    assert (K1 : LexProofs.at_ inp s 1 c).
    { unfold LexProofs.at_. assert (E : forall (l : bytes) p k, nth_error l (p + k) = nth_error (skipn p l) k).
      { clear. induction l as [|y l IH]; intros [|p] k; cbn; try reflexivity; [destruct k; reflexivity|apply IH]. }
      rewrite E, HH. reflexivity. }
    rewrite (fail_esc _ _ _ _ _ _ _ H K0 K1) in HX. discriminate.
Qed.
Lemma take_semi : forall R t, takes t (PStr (B "\;") ⋅ PAct (TDo [SStrAppend (B ";")]) : cexp) ["\"; ";"]%char R (HAppend [";"%char]).
Proof.
  intros R t. apply light_takes; [reflexivity|reflexivity|exists (Some 0); split; [reflexivity|auto]| |].
  - intros m s s' HH H. apply run_seq in H. destruct H as (m3 & s3 & _ & H1 & H2). apply run_str in H1. destruct H1 as [O T].
    apply run_act in H2. destruct H2 as [O2 T2].
    split; [eapply over_eq; [exact O|reflexivity|exact O2]|]. exists [(TDo [SStrAppend (B ";")], pos s3)].
    split; [rewrite T2, T; reflexivity|apply lexes_text].
  - intros m s s' HH H. apply fail_seq in H. destruct H as (k & _ & [(s1 & H)|(s1 & _ & H)]); [|apply fail_act in H; exact H].
    destruct k as [|k]; [discriminate|]. cbn [Peg.run match_str B list_ascii_of_string] in H.
    destruct (here_next inp _ _ _ HH) as [G1 G2]. rewrite G1 in H. cbn in H.
    destruct (here_next inp _ _ _ G2) as [G3 _]. cbn in G3. rewrite G3 in H. cbn in H. discriminate.
Qed.
Lemma take_run : forall n0 n R t, (forall c, In c (n0 :: n) -> ~ In c word_ends) -> (forall t, refuses t word1 R) ->
  takes t (block_exp (PPlus word1)) (n0 :: n) R (HAppend (n0 :: n)).
Proof.
  intros n0 n R t HN HR.
  assert (H1 : forall t, takes t (PPlus word1) (n0 :: n) R HNone).
  { apply (bytes_plus col off inp _ (fun c => ~ In c word_ends)); [|exact HN|exact HR]. intros d R0 s Hd. apply word_take, Hd. }
  apply light_takes; [reflexivity|reflexivity|exists (Some 0); split; [reflexivity|auto]| |].
  - intros m s s' HH H. apply (run_block_exp _ _ _ _ _ _ _ (fun s u => here s ((n0 :: n) ++ R) -> u = n0 :: n)) in H.
    + destruct H as (u & L & P). rewrite (P HH) in L. exact L.
    + clear m s s' HH H. intros m s s' H. pose proof H as H0. apply (plus_chars _ _ _ (fun c _ => plain_char c)) in H0; [|apply run_plain_char].
      destruct H0 as (c & u & O & T & _). exists (c :: u). split; [exact O|]. split; [exact T|]. intros HH.
      pose proof (H1 (mkt None (c_precs (user s))) m s HH ltac:(split; [reflexivity|exact I])) as K. rewrite H in K. destruct K as (K & _).
      destruct O as [_ O]. destruct HH as [HH _]. destruct K as [K _]. rewrite HH, K in O. apply app_inv_tail in O. symmetry. exact O.
    + intros s1 s2 u E P [Q1 Q2]. apply P. split; [rewrite E; exact Q1|rewrite E; exact Q2].
  - intros m s s' HH H. apply fail_block in H. destruct H as (k & s1 & s2 & E & H).
    assert (HH' : here s1 ((n0 :: n) ++ R)) by (destruct HH as [Q1 Q2]; split; rewrite E; assumption).
    pose proof (H1 (mkt None (c_precs (user s1))) k s1 HH' ltac:(split; [reflexivity|exact I])) as K. rewrite H in K. exact K.
Qed.
Lemma word_stop_part : forall c R t, is_quote c \/ c = "\"%char -> refuses t word1 (c :: R).
Proof.
  intros c R t HC. assert (HC' : c = "'"%char \/ c = """"%char \/ c = "\"%char) by (unfold is_quote in HC; tauto). clear HC.
  destruct R as [|c9 R']; [replace [c] with (text (many [] []) [Kn c]) by reflexivity
    |replace (c :: c9 :: R') with (text (many [] R') [Kn c; Ho 9 c9]) by (cbn; rewrite ?app_nil_r; reflexivity)];
  destruct HC' as [-> | [-> | ->]].
  1-3: (eapply (refuse_of col off inp (many [] []) (effs []) nofact 40); [run_fail|reflexivity|apply Forall_nil]).
  all: (eapply (refuse_of col off inp (many [] R') (effs []) nofact 40); [run_fail|reflexivity|apply Forall_nil]).
Qed.
Lemma no_item_quote : forall q R t, is_quote q -> refuses t unquoted_body (q :: R).
Proof.
  intros q R t HQ. destruct R as [|c9 R'].
  - replace [q] with (text (many [] []) [Kn q]) by reflexivity.
    destruct HQ as [-> | ->]; (eapply (refuse_of col off inp (many [] []) (effs []) nofact 40); [run_fail|reflexivity|apply Forall_nil]).
  - replace (q :: c9 :: R') with (text (many [] R') [Kn q; Ho 9 c9]) by (cbn; rewrite ?app_nil_r; reflexivity).
    destruct HQ as [-> | ->]; (eapply (refuse_of col off inp (many [] R') (effs []) nofact 40); [run_fail|reflexivity|apply Forall_nil]).
Qed.
Definition part1 : cexp := PRule R_unquoted ∥ PRule R_quoted.
Lemma no_item : forall R t, stops R -> refuses t unquoted_body R.
Proof.
  intros R t H. tails_ H.
  all: lazymatch goal with |- ForwardLex.refuses _ _ _ _ _ ?R => let w := tail_toks R in let R' := tail_rest R in
    replace R with (text (many [] R') w) by (cbn; rewrite ?app_nil_r; reflexivity);
    eapply (refuse_of col off inp (many [] R') (effs []) nofact 40); [run_fail|reflexivity|apply Forall_nil] end.
Qed.
Lemma no_part : forall R t, stops R -> refuses t part1 R.
Proof.
  intros R t H. tails_ H.
  all: lazymatch goal with |- ForwardLex.refuses _ _ _ _ _ ?R => let w := tail_toks R in let R' := tail_rest R in
    replace R with (text (many [] R') w) by (cbn; rewrite ?app_nil_r; reflexivity);
    eapply (refuse_of col off inp (many [] R') (effs []) nofact 40); [run_fail|reflexivity|apply Forall_nil] end.
Qed.
Lemma no_escape_semi : forall R t, refuses t (PRule R_escaped_char) ("\" :: ";" :: R)%char.
Proof.
  intros R t. destruct R as [|c9 R'].
  - replace ["\"; ";"]%char with (text (many [] []) [Kn "\"; Kn ";"]%char) by reflexivity.
    eapply (refuse_of col off inp (many [] []) (effs []) nofact 40); [run_fail|reflexivity|apply Forall_nil].
  - replace ("\" :: ";" :: c9 :: R')%char with (text (many [] R') [Kn "\"; Kn ";"; Ho 9 c9]%char) by (cbn; rewrite ?app_nil_r; reflexivity).
    eapply (refuse_of col off inp (many [] R') (effs []) nofact 40); [run_fail|reflexivity|apply Forall_nil].
Qed.

(** words with their plain runs as long as they can be *)
Definition starts_part (u : bytes) : Prop := u = [] \/ exists c r, u = c :: r /\ (is_quote c \/ c = "\"%char).
Inductive parted : bytes -> bytes -> Prop :=
| pt_none : parted [] []
| pt_run : forall n0 n v u, (forall c, In c (n0 :: n) -> ~ In c word_ends) -> starts_part u -> parted v u -> parted ((n0 :: n) ++ v) ((n0 :: n) ++ u)
| pt_escape : forall c x v u, escape c = Some x -> parted v u -> parted ([x] ++ v) (["\"%char; c] ++ u)
| pt_semi : forall v u, parted v u -> parted ([";"%char] ++ v) (["\"; ";"]%char ++ u)
| pt_quoted : forall w q v u, quoted_text q w -> parted v u -> parted (w ++ v) (q ++ u).
Lemma spells_parted : forall v u, spells v u -> parted v u.
Proof.
  intros v u H. induction H as [|c v u HC H IH|c x v u HX H IH|v u H IH|w q v u HQ H IH].
  - apply pt_none.
  - inversion IH as [|n0 n v' u' HN HS HP|c' x v' u' HX HP|v' u' HP|w q v' u' HQ HP]; subst.
    + apply (pt_run c []); [intros d [<-|[]]; exact HC|left; reflexivity|apply pt_none].
    + apply (pt_run c (n0 :: n)); [intros d [<-|Hd]; [exact HC|apply HN, Hd]|exact HS|exact HP].
    + apply (pt_run c []); [intros d [<-|[]]; exact HC|right; eexists; eexists; split; [reflexivity|right; reflexivity]|exact IH].
    + apply (pt_run c []); [intros d [<-|[]]; exact HC|right; eexists; eexists; split; [reflexivity|right; reflexivity]|exact IH].
    + apply (pt_run c []); [intros d [<-|[]]; exact HC| |exact IH].
      destruct HQ as (k & body & Q1 & -> & _). right. eexists; eexists; split; [reflexivity|left; exact Q1].
  - apply (pt_escape c x); assumption.
  - apply pt_semi. exact IH.
  - apply pt_quoted; assumption.
Qed.
Lemma starts_refuse : forall u R t, starts_part u -> stops R -> refuses t word1 (u ++ R).
Proof. intros u R t [->|(c & r & -> & H)] HR; [apply word_stop, HR|apply word_stop_part, H]. Qed.

Lemma take_item_run : forall n0 n R t, (forall c, In c (n0 :: n) -> ~ In c word_ends) -> (forall t, refuses t word1 R) ->
  takes t unquoted_body (n0 :: n) R (HAppend (n0 :: n)).
Proof.
  intros n0 n R t HN HR. pose proof (HN n0 (or_introl eq_refl)) as H0. unfold unquoted_body.
  apply take_right; [apply no_escape, H0|]. intros t1. apply take_right; [|intros t2; apply take_run; assumption].
  intros m s HH HS. destruct m as [|m]; [exact I|]. cbn [Peg.run]. pose proof (no_semi n0 (n ++ R) t1 H0 m s HH HS) as K.
  destruct (runc m (PStr (B "\;")) s); auto. contradiction.
Qed.
Lemma take_parts : forall v u R, parted v u -> stops R ->
  (exists u1 u2 v1 v2, u = u1 ++ u2 /\ v = v1 ++ v2 /\ (forall t, takes t (PStar unquoted_body) u1 (u2 ++ R) (HAppend v1)) /\
    (forall t, takes t (PStar part1) u2 R (HAppend v2))) /\
  (forall t, takes t (PStar part1) u R (HAppend v)) /\ (u <> [] -> forall t, takes t (PPlus part1) u R (HAppend v)).
Proof.
  intros v u R H HR.
  assert (ITEM : forall i w u1 u2 v1 v2, (forall t, takes t unquoted_body i ((u1 ++ u2) ++ R) (HAppend w)) ->
    (forall t, takes t (PStar unquoted_body) u1 (u2 ++ R) (HAppend v1)) -> (forall t, takes t (PStar part1) u2 R (HAppend v2)) ->
    (exists a1 a2 b1 b2, i ++ u1 ++ u2 = a1 ++ a2 /\ w ++ v1 ++ v2 = b1 ++ b2 /\ (forall t, takes t (PStar unquoted_body) a1 (a2 ++ R) (HAppend b1)) /\
    (forall t, takes t (PStar part1) a2 R (HAppend b2))) /\
    (forall t, takes t (PStar part1) (i ++ u1 ++ u2) R (HAppend (w ++ v1 ++ v2))) /\
    (i ++ u1 ++ u2 <> [] -> forall t, takes t (PPlus part1) (i ++ u1 ++ u2) R (HAppend (w ++ v1 ++ v2)))).
  { intros i w u1 u2 v1 v2 HI HX HA. assert (HI' : forall t, takes t unquoted_body i (u1 ++ u2 ++ R) (HAppend w)) by (intros t; rewrite app_assoc; apply HI).
    assert (HP : forall t, takes t part1 (i ++ u1) (u2 ++ R) (HAppend (w ++ v1))).
    { intros t. apply take_left. apply take_unquoted. apply append_plus; [apply HI'|exact HX]. }
    split; [|split].
    - exists (i ++ u1), u2, (w ++ v1), v2. rewrite <- !app_assoc. split; [reflexivity|]. split; [reflexivity|]. split; [|exact HA].
      intros t. apply append_more; [apply HI'|exact HX].
    - intros t. rewrite (app_assoc i), (app_assoc w). apply append_more; [apply HP|exact HA].
    - intros _ t. rewrite (app_assoc i), (app_assoc w). apply append_plus; [apply HP|exact HA]. }
  induction H as [|n0 n v u HN HS HP IH|c x v u HX HP IH|v u HP IH|w q v u HQ HP IH].
  - assert (HA : forall t, takes t (PStar part1) [] R (HAppend [])) by (intros t; apply append_none, no_part, HR).
    split; [|split; [exact HA|congruence]]. exists [], [], [], []. split; [reflexivity|]. split; [reflexivity|]. split; [|exact HA].
    intros t. apply append_none, no_item, HR.
  - destruct IH as ((u1 & u2 & v1 & v2 & -> & -> & I1 & I2) & _). apply ITEM; [|exact I1|exact I2].
    intros t. apply take_item_run; [exact HN|]. intros t'. apply starts_refuse; assumption.
  - destruct IH as ((u1 & u2 & v1 & v2 & -> & -> & I1 & I2) & _). apply ITEM; [|exact I1|exact I2].
    intros t. apply take_left, take_escape, HX.
  - destruct IH as ((u1 & u2 & v1 & v2 & -> & -> & I1 & I2) & _). apply ITEM; [|exact I1|exact I2].
    intros t. apply take_right; [apply no_escape_semi|]. intros t'. apply take_left, take_semi.
  - destruct IH as (_ & IA & _). pose proof HQ as (k & body & Q1 & EQ & _).
    assert (HA : forall t, takes t part1 q (u ++ R) (HAppend w)).
    { intros t. apply take_right; [|intros t'; apply take_quoted, HQ]. rewrite EQ. apply no_unquoted, Q1. }
    assert (HB : forall t, takes t (PStar part1) (q ++ u) R (HAppend (w ++ v))) by (intros t; apply append_more; [apply HA|exact IA]).
    split; [|split; [exact HB|intros _ t; apply append_plus; [apply HA|exact IA]]].
    exists [], (q ++ u), [], (w ++ v). split; [reflexivity|]. split; [reflexivity|]. split; [|exact HB].
    intros t. apply append_none. rewrite EQ. apply no_item_quote, Q1.
Qed.

Definition fact_word (c : ascii) : cexp -> list tok -> verdict := tight (fun e w =>
  match e, w with
  | PPlus _, [Ho 1 _] => FTake 1 [Ho 9 c]
  | _, _ => FNone
  end).
Lemma stops_cons : forall R, stops R -> exists c R', R = c :: R'.
Proof. intros R [(b & c & R' & _ & ->)|(e & R' & [<-|[<-|[<-|[]]]] & ->)]; eexists; eexists; reflexivity. Qed.
Lemma take_word : forall v u R t, prints_word v u -> stops R -> takes t (PRule R_client_arg_string) u R (HNode (named T_STRING v)).
Proof.
  intros v u R t [HN HS] HR. destruct (take_parts v u R (spells_parted v u HS) HR) as (_ & _ & H1). specialize (H1 HN).
  destruct u as [|c1 r1]; [contradiction|]. destruct (stops_cons R HR) as (c & R' & ->). clear HR HS HN. unfold part1 in H1.
  eapply (take_of col off inp (many [[]; r1 ++ c :: R'] R') (effs [HNone; HAppend v]) (fact_word c) 60 _ [Ho 1 c1] t);
    [run_trun|reflexivity| |apply node_ok; run_node|nrm_; reflexivity|nrm_; reflexivity].
  hole_ ltac:(first [apply H1]).
Qed.
Lemma spells_head : forall v u, spells v u -> u <> [] ->
  (exists c r, u = c :: r /\ ~ In c [" "; "009"; "/"; "\"]%char) \/ (exists c r, u = "\"%char :: c :: r /\ (escape c <> None \/ c = ";"%char)).
Proof.
  intros v u H HN. destruct H as [|c v u HC H|c x v u HX H|v u H|w q v u HQ H].
  - contradiction.
  - left. exists c, u. split; [reflexivity|]. intros K. apply HC. cbn in K |- *. tauto.
  - right. exists c, u. split; [reflexivity|]. left. congruence.
  - right. exists ";"%char, u. auto.
  - left. destruct HQ as (k & body & Q1 & -> & _). eexists; eexists; split; [reflexivity|]. destruct Q1 as [-> | ->]; cbn; intuition discriminate.
Qed.
Lemma word_solid : forall v u R, prints_word v u -> solid (u ++ R).
Proof.
  intros v u R [HN HS]. destruct (spells_head v u HS HN) as [(c & r & -> & K)|(c & r & -> & K)].
  - exists c, (r ++ R). split; [reflexivity|]. intros H. apply K. cbn in H |- *. tauto.
  - exists "\"%char, (c :: r ++ R). split; [reflexivity|]. cbn. intuition discriminate.
Qed.
Definition continued : cexp := PChar "\"%char ⋅ PRule R_hsp ⋅ PRule R_line_end ⋅ PRule R_hsp.
Lemma no_continued : forall v u R t, prints_word v u -> refuses t continued (u ++ R).
Proof.
  intros v u R t [HN HS]. destruct (spells_head v u HS HN) as [(c & r & -> & K)|(c & r & -> & K)]; cbn [app]; generalize (r ++ R) as r'; intros r'.
  - replace (c :: r') with (text (many [[]; r'] []) [Ho 1 c]) by (cbn; rewrite app_nil_r; reflexivity).
    destruct c as [[] [] [] [] [] [] [] []]; try (exfalso; apply K; cbn; tauto).
    all: eapply (refuse_of col off inp (many [[]; r'] []) (effs []) nofact 20); [run_fail|reflexivity|apply Forall_nil].
  - destruct r' as [|c9 R'].
    + replace ["\"; c]%char with (text (many [] []) [Kn "\"%char; Kn c]) by reflexivity.
      destruct c as [[] [] [] [] [] [] [] []]; try (exfalso; destruct K as [K|K]; [apply K; reflexivity|discriminate K]).
      all: eapply (refuse_of col off inp (many [] []) (effs []) nofact 40); [run_fail|reflexivity|apply Forall_nil].
    + replace ("\" :: c :: c9 :: R')%char with (text (many [] R') [Kn "\"%char; Kn c; Ho 9 c9]) by (cbn; rewrite ?app_nil_r; reflexivity).
      destruct c as [[] [] [] [] [] [] [] []]; try (exfalso; destruct K as [K|K]; [apply K; reflexivity|discriminate K]).
      all: eapply (refuse_of col off inp (many [] R') (effs []) nofact 40); [run_fail|reflexivity|apply Forall_nil].
Qed.
Lemma take_arg : forall v u g R t, prints_word v u -> blanks g -> g <> [] -> solid R ->
  takes t (PRule R_client_command_arg) (u ++ g) R (HNode (named T_STRING v)).
Proof.
  intros v u g R t H HG HN HR. pose proof (fun t => hsp_some g R t HG HR) as H2.
  destruct HR as (c & R' & -> & _). destruct g as [|b g]; [contradiction|].
  assert (HT : stops ((b :: g) ++ c :: R')).
  { left. destruct g as [|b' g]; [exists b, c, R'|exists b, b', (g ++ c :: R')]; (split; [apply HG; left; reflexivity|reflexivity]). }
  pose proof (fun t => take_word v u _ t H HT) as H1. clear HT HG HN.
  destruct (word_solid v u ((b :: g) ++ c :: R') H) as (c1 & r1 & E1 & _).
  generalize dependent (named T_STRING v). intros tm H1.
  eapply (take_of col off inp (many [[]; r1; []; g ++ c :: R'] R') (effs [HNone; HNode tm; HNone])
    (fact_tab [(R_client_arg_string, [1], FTake 1 [Ho 3 b]); (R_hsp, [3], FTake 2 [Ho 9 c])] []) 60 _ [Ho 1 c1] t);
    [run_trun|reflexivity| |apply node_ok; run_node|nrm_; rewrite <- ?E1; cbn [app]; reflexivity|nrm_; reflexivity].
  obs_ ltac:(first [eapply ob_take; [cbn [effs nth]; eapply takes_at; [first [apply H1|apply H2]|nrm_; rewrite <- ?E1; reflexivity]|nrm_; rewrite <- ?E1; reflexivity]]).
Qed.

Lemma ending_solid : forall e R, ending e -> solid (e ++ R).
Proof. intros e R [<-|[<-|[<-|[]]]]; (eexists; eexists; split; [reflexivity|cbn; intuition discriminate]). Qed.
Lemma take_arg_last : forall v u e R t, prints_word v u -> ending e -> takes t (PRule R_client_command_arg) u (e ++ R) (HNode (named T_STRING v)).
Proof.
  intros v u e R t H HE. pose proof (fun t => hsp_none (e ++ R) t (ending_solid e R HE)) as H2.
  pose proof (fun t => take_word v u (e ++ R) t H ltac:(right; eauto)) as H1.
  destruct (word_solid v u (e ++ R) H) as (c1 & r1 & E1 & _). destruct (ending_solid e R HE) as (c & R' & E2 & _). rewrite E2 in *.
  generalize dependent (named T_STRING v). intros tm H1.
  eapply (take_of col off inp (many [[]; r1] R') (effs [HNone; HNode tm; HNone])
    (fact_tab [(R_client_arg_string, [1], FTake 1 [Ho 9 c]); (R_hsp, [9], FTake 2 [Ho 9 c])] []) 60 _ [Ho 1 c1] t);
    [run_trun|reflexivity| |apply node_ok; run_node|nrm_; rewrite ?E1; reflexivity|nrm_; reflexivity].
  obs_ ltac:(first [eapply ob_take; [cbn [effs nth]; eapply takes_at; [first [apply H1|apply H2]|nrm_; rewrite ?E1; reflexivity]|nrm_; rewrite ?E1; reflexivity]]).
Qed.

(** ** Arguments *)
Definition arg1 : cexp := PChar "\"%char ⋅ PRule R_hsp ⋅ PRule R_line_end ⋅ PRule R_hsp ∥ bind 1 R_client_command_arg ⋅ PAct (TDo [SSeqAdd (AVar 1)]).
Definition fact_arg (w' : list tok) : cexp -> list tok -> verdict := tight (fun e w =>
  match e, w with
  | PRule R_client_command_arg, [Ho 1 _] => FTake 1 w'
  | PSeq (PChar _) _, [Ho 1 _] => FFail
  | _, _ => FNone
  end).
Lemma take_arg1 : forall v u z R t, prints_word v u -> solid R ->
  (forall t, takes t (PRule R_client_command_arg) (u ++ z) R (HNode (named T_STRING v))) -> takes t arg1 (u ++ z) R (HGrow 2 [1] [named T_STRING v]).
Proof.
  intros v u z R t H HR H1. pose proof (fun t => no_continued v u (z ++ R) t H) as N1.
  destruct (word_solid v u (z ++ R) H) as (c1 & r1 & E1 & _). rewrite E1 in N1.
  destruct HR as (c & R' & -> & _). generalize dependent (named T_STRING v). intros tm H1.
  eapply (take_of col off inp (many [[]; r1] R') (effs [HNone; HNode tm]) (fact_arg [Ho 9 c]) 60 _ [Ho 1 c1] t);
    [run_trun|reflexivity| |apply grow_ok; [reflexivity|run_grow]|nrm_; rewrite ?E1; reflexivity|nrm_; reflexivity].
  obs_ ltac:(first [eapply ob_take; [cbn [effs nth]; eapply takes_at; [apply H1|nrm_; rewrite ?E1; reflexivity]|nrm_; rewrite ?E1; reflexivity]
    |apply ob_refuse; eapply refuses_at; [apply N1|nrm_; rewrite ?E1; reflexivity]]).
Qed.
Lemma no_arg1 : forall e R t, ending e -> refuses t arg1 (e ++ R).
Proof.
  intros e R t HE. destruct R as [|c9 R'].
  - rewrite app_nil_r. replace e with (text (many [] []) (map Kn e)) by (rewrite <- (app_nil_r (map Kn e)); rewrite text_known; apply app_nil_r).
    destruct HE as [<-|[<-|[<-|[]]]]; (eapply (refuse_of col off inp (many [] []) (effs []) nofact 60); [run_fail|reflexivity|apply Forall_nil]).
  - replace (e ++ c9 :: R') with (text (many [] R') (map Kn e ++ [Ho 9 c9])) by (rewrite text_known; cbn; rewrite ?app_nil_r; reflexivity).
    destruct HE as [<-|[<-|[<-|[]]]]; (eapply (refuse_of col off inp (many [] R') (effs []) nofact 60); [run_fail|reflexivity|apply Forall_nil]).
Qed.
Definition fact_line (w1 w' : list tok) : cexp -> list tok -> verdict := tight (fun e w =>
  match e, w with
  | PRule R_hsp, [Ho 1 _] => FTake 1 w1
  | PRule R_hsp, [Ho 2 _] => FTake 1 w'
  | _, _ => FNone
  end).
Lemma take_line : forall g l g' R t, blanks g -> In l line_ends -> blanks g' -> solid R ->
  takes t arg1 (B "\" ++ g ++ l ++ g') R (HGrow 2 [1] []).
Proof.
  intros g l g' R t HG HL HG' HR.
  pose proof (fun t => hsp_some g' R t HG' HR) as H2.
  assert (HL' : solid (l ++ g' ++ R)) by (apply ending_solid; right; exact HL).
  pose proof (fun t => hsp_some g (l ++ g' ++ R) t HG HL') as H1. clear HL'.
  assert (E1 : exists c1 r1, g ++ l ++ g' ++ R = c1 :: r1).
  { destruct g; [|cbn; eauto]. destruct HL as [<-|[<-|[]]]; cbn; eauto. }
  assert (E2 : exists c2 r2, g' ++ R = c2 :: r2).
  { destruct HR as (c & R' & -> & _). destruct g'; cbn; eauto. }
  destruct E1 as (c1 & r1 & E1). destruct E2 as (c2 & r2 & E2). destruct HR as (c & R' & -> & _).
  destruct HL as [<-|[<-|[]]].
  - eapply (take_of col off inp (many [[]; r1; r2] R') (effs [HNone; HNone]) (fact_line [Kn "010"%char; Ho 2 c2] [Ho 9 c]) 60 _ [Kn "\"%char; Ho 1 c1] t);
      [run_trun|reflexivity| |apply grow_ok; [reflexivity|run_grow]|nrm_; rewrite <- ?E1; cbn [app]; rewrite <- ?E2; reflexivity|nrm_; reflexivity].
    all: obs_ ltac:(first [eapply ob_take; [cbn [effs nth]; eapply takes_at; [apply H1|nrm_; rewrite <- ?E2; reflexivity]|nrm_; rewrite <- ?E1; reflexivity]
      |eapply ob_take; [cbn [effs nth]; eapply takes_at; [apply H2|nrm_; reflexivity]|nrm_; rewrite <- ?E2; reflexivity]]).
  - eapply (take_of col off inp (many [[]; r1; r2] R') (effs [HNone; HNone]) (fact_line [Kn "013"%char; Kn "010"%char; Ho 2 c2] [Ho 9 c]) 60 _ [Kn "\"%char; Ho 1 c1] t);
      [run_trun|reflexivity| |apply grow_ok; [reflexivity|run_grow]|nrm_; rewrite <- ?E1; cbn [app]; rewrite <- ?E2; reflexivity|nrm_; reflexivity].
    all: obs_ ltac:(first [eapply ob_take; [cbn [effs nth]; eapply takes_at; [apply H1|nrm_; rewrite <- ?E2; reflexivity]|nrm_; rewrite <- ?E1; reflexivity]
      |eapply ob_take; [cbn [effs nth]; eapply takes_at; [apply H2|nrm_; reflexivity]|nrm_; rewrite <- ?E2; reflexivity]]).
Qed.
Lemma words_solid : forall vs us e R, prints_words vs us -> ending e -> solid (us ++ e ++ R).
Proof.
  intros vs us e R H HE. destruct H as [|v u H|v u g vs us H _ _ _|g l g' vs us _ _ _ _]; [exact (ending_solid e R HE)|apply (word_solid v), H| |].
  - rewrite <- app_assoc. apply (word_solid v), H.
  - eexists; eexists; split; [reflexivity|cbn; intuition discriminate].
Qed.
Lemma take_args : forall vs us e R, prints_words vs us -> ending e ->
  forall t, takes t (PStar arg1) us (e ++ R) (HGrow 2 [1] (map (named T_STRING) vs)).
Proof.
  intros vs us e R H HE. induction H as [|v u H|v u g vs us H HG HN HS IH|g l g' vs us HG HL HG' HS IH]; intros t.
  - apply star_none. intros t'. apply no_arg1, HE.
  - rewrite <- (app_nil_r u). rewrite <- (app_nil_r (u ++ [])).
    apply (star_more col off inp t _ (u ++ []) [] _ 2 [1] [named T_STRING v] []); [|apply star_none; intros t'; apply no_arg1, HE].
    apply take_arg1; [exact H|exact (ending_solid e R HE)|]. intros t'. rewrite app_nil_r. first [exact (take_arg_last v u e R t' H HE)|exact (take_arg_last n us e R t' HN HE)].
  - rewrite app_assoc. apply (star_more col off inp t _ (u ++ g) us _ 2 [1] [named T_STRING v] _); [|apply IH].
    pose proof (words_solid vs us e R HS HE) as S. apply take_arg1; [exact H|exact S|]. intros t'. apply take_arg; assumption.
  - apply (star_more col off inp t _ (B "\" ++ g ++ l ++ g') us _ 2 [1] [] _); [|apply IH].
    apply take_line; [exact HG|exact HL|exact HG'|exact (words_solid vs us e R HS HE)].
Qed.
Definition fact_command (c1 : ascii) (w2 w9 : list tok) : cexp -> list tok -> verdict := tight (fun e w =>
  match e, w with
  | PRule R_hsp, [Ho 4 _] => FTake 3 [Ho 1 c1]
  | PRule R_client_command_arg, [Ho 1 _] => FTake 1 w2
  | PStar _, [Ho 2 _] => FTake 2 w9
  | _, _ => FNone
  end).
Lemma take_command_of : forall n g un z args ua e R t, blanks g -> prints_word n un -> ending e -> solid (ua ++ e ++ R) ->
  (forall t, takes t (PRule R_client_command_arg) (un ++ z) (ua ++ e ++ R) (HNode (named T_STRING n))) ->
  (forall t, takes t (PStar arg1) ua (e ++ R) (HGrow 2 [1] (map (named T_STRING) args))) ->
  takes t (PRule R_client_command) (B ":" ++ g ++ (un ++ z) ++ ua ++ e) R (HNode (command_term n args)).
Proof.
  intros n g un z args ua e R t HG HN HE S2 H1 H2. unfold command_term.
  pose proof (fun t => hsp_some g _ t HG (word_solid n un (z ++ ua ++ e ++ R) HN)) as H3.
  destruct (word_solid n un (z ++ ua ++ e ++ R) HN) as (c1 & r1 & E1 & _).
  destruct S2 as (c2 & r2 & E2 & _).
  assert (E4 : exists c4 r4, g ++ un ++ z ++ ua ++ e ++ R = c4 :: r4) by (rewrite E1; destruct g; cbn; eauto).
  destruct E4 as (c4 & r4 & E4).
  generalize dependent (map (named T_STRING) args). intros ts H2. generalize dependent (named T_STRING n). intros tm H1.
  rewrite <- (app_nil_r ts).
  destruct HE as [<-|[<-|[<-|[]]]]; destruct R as [|c9 R']; cbn [app B list_ascii_of_string] in *;
  (lazymatch type of E2 with ua ++ ?e = _ => let w9 := tail_toks e in let R' := tail_rest e in
    eapply (take_of col off inp (many [[]; r1; r2; []; r4] R') (effs [HNone; HNode tm; HGrow 2 [1] ts; HNone]) (fact_command c1 [Ho 2 c2] w9) 60 _ [Kn ":"%char; Ho 4 c4] t)
  end;
    [run_trun|reflexivity| |apply node_ok; run_node|nrm_; rewrite <- ?E4; rewrite ?E1; reflexivity|nrm_; rewrite <- ?E4; rewrite ?E1; reflexivity]).
  all: obs_ ltac:(first [eapply ob_take; [cbn [effs nth]; eapply takes_at; [first [apply H1|apply H2|apply H3]|nrm_; rewrite <- ?E4; rewrite ?E1, ?E2; reflexivity]|nrm_; rewrite <- ?E4; rewrite ?E1, ?E2; reflexivity]]).
Qed.
Lemma take_command : forall n args u R t, prints_command n args u -> takes t (PRule R_client_command) u R (HNode (command_term n args)).
Proof.
  intros n args u R t H. destruct H as [n g us e HG HN HE|n args g un z ua e HG HN HZ HZ' HA HE].
  - assert (E : us ++ e = (us ++ []) ++ [] ++ e) by (rewrite app_nil_r; reflexivity). rewrite E.
    apply (take_command_of n g us [] [] [] e R t HG HN HE); [exact (ending_solid e R HE)| |].
    + intros t'. rewrite app_nil_r. exact (take_arg_last n us e R t' HN HE).
    + apply take_args; [apply pws_none|exact HE].
  - pose proof (words_solid args ua e R HA HE) as S.
    apply (take_command_of n g un z args ua e R t HG HN HE S); [|apply take_args; assumption]. intros t'. apply take_arg; assumption.
Qed.
Lemma command_head : forall n args u R, prints_command n args u -> exists c r, u ++ R = ":"%char :: c :: r.
Proof.
  intros n args u R H.
  assert (K : forall g us w, prints_word n us -> exists c r, ":"%char :: g ++ us ++ w = ":"%char :: c :: r).
  { intros g us w HN. destruct (word_solid n us w HN) as (c & r & E & _). rewrite E. destruct g; cbn; eauto. }
  destruct H as [n g us e HG HN HE|n args g un z ua e HG HN HZ HZ' HA HE].
  - destruct (K g us (e ++ R) HN) as (c & r & E). exists c, r. rewrite <- E. cbn. rewrite <- !app_assoc. reflexivity.
  - destruct (K g un (z ++ ua ++ e ++ R) HN) as (c & r & E). exists c, r. rewrite <- E. cbn. rewrite <- !app_assoc. reflexivity.
Qed.
End Command.
