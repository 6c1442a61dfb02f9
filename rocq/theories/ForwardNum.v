(** * What the rules of expressions take: integers *)
From Coq Require Import List Bool Arith Ascii String ZArith Lia Permutation.
From Verif Require Import Peg PegProofs PegThunks QuickModel QuickSpec QuickProofs CypherSyntax CypherGrammar OperModel ErrModel
  CypherMatch AstTypes AstModel CypherBuild CypherExec CypherParse CypherRun CypherRound CypherSpec
  NodeFacts NodeHeld FlowSound FlowRun SafeProofs TraceSpec TraceProofs LexSpec LexProofs TermSpec Forward ForwardExec ForwardLex
  ForwardStep ForwardAtom ForwardName.
Import ListNotations.
Open Scope peg_scope.
Opaque parse_one cfuel.
Strategy expand [crun].

Lemma digits_stop : forall ds a x w R, all_in digit_chars ds -> all_in digit_chars a -> ~ In x digit_chars ->
  ds ++ " "%char :: R = a ++ x :: w -> x = " "%char.
Proof.
  induction ds as [|d ds IH]; intros a x w R HD HA HX E.
  - destruct a as [|y a]; [injection E as <- _; reflexivity|]. injection E as <- _.
    exfalso. specialize (HA " "%char (or_introl eq_refl)). cbn in HA. clear - HA. intuition discriminate.
  - destruct a as [|y a].
    + injection E as <- _. exfalso. apply HX, HD. left. reflexivity.
    + injection E as <- E. eapply IH; [| |exact HX|exact E]; intros c Hc; [apply HD|apply HA]; right; exact Hc.
Qed.

Section Num.
Variables (col : coloring) (off : position) (inp : bytes).
Notation runc := (run CG (get_of inp) (cprun col off)).
Notation vis := (visits col off inp).
Notation cst := (pst action cuser).
Notation performs := (performs inp).
Notation takes := (takes col off inp).
Notation refuses := (refuses col off inp).
Notation here := (here inp).
Notation goes := (goes col off inp).

Lemma star_all : forall x cs, (forall c R, In c cs -> goes x (c :: R) (fun u => u = R)) ->
  (forall c R m s s', In c cs -> here s (c :: R) -> runc m x s = RFail s' -> False) ->
  forall ds R, all_in cs ds -> (forall t, refuses t x R) -> goes (PStar x) (ds ++ R) (fun u => u = R).
Proof.
  intros x cs H1 H2. induction ds as [|c ds IH]; intros R HD HR; [apply goes_star_end; exact HR|].
  intros [|m] s HH; [exact I|]. cbn [Peg.run]. assert (HC : In c cs) by (apply HD; left; reflexivity).
  destruct (runc m x s) as [s1|s1| |] eqn:E; auto; [|exfalso; eapply H2; eassumption].
  specialize (H1 c (ds ++ R) HC m s HH). rewrite E in H1. destruct H1 as (R1 & H1 & ->).
  exact (IH R (fun c Hc => HD c (or_intror Hc)) HR m s1 H1).
Qed.
Lemma here_char : forall (s : cst) c R, here s (c :: R) -> LexProofs.at_ inp s 0 c.
Proof.
  intros s c R [H _]. unfold LexProofs.at_. rewrite Nat.add_0_r.
  assert (E : nth_error inp (pos s) = nth_error (skipn (pos s) inp) 0).
  { clear. generalize (pos s). induction inp as [|x l IH]; intros [|p]; try reflexivity. apply IH. }
  rewrite E, H. reflexivity.
Qed.
Lemma class_one : forall cs c R, In c cs -> goes (PClass cs) (c :: R) (fun u => u = R).
Proof.
  intros cs c R HC m s HH. destruct (runc m (PClass cs) s) as [s'|s'| |] eqn:E; auto.
  apply run_class in E. destruct E as (d & O & _ & _). exists R. split; [|reflexivity].
  pose proof (here_char _ _ _ HH) as K. pose proof (at_of_over _ _ _ _ 0 d O eq_refl) as K2. unfold LexProofs.at_ in K, K2.
  rewrite K in K2. injection K2 as <-. exact (over_here inp s s' [c] R O HH).
Qed.
Lemma class_must : forall cs c R m s s', In c cs -> here s (c :: R) -> runc m (PClass cs) s = RFail s' -> False.
Proof. intros cs c R m s s' HC HH H. eapply fail_class in H; [|eapply here_char; exact HH]. contradiction. Qed.
Lemma class_stop : forall t cs c R, ~ In c cs -> refuses t (PClass cs) (c :: R).
Proof.
  intros t cs c R HC m s HH [HS _]. destruct (runc m (PClass cs) s) as [s'|s'| |] eqn:E; auto.
  - apply run_class in E. destruct E as (d & O & HD & _).
    pose proof (here_char _ _ _ HH) as K. pose proof (at_of_over _ _ _ _ 0 d O eq_refl) as K2. unfold LexProofs.at_ in K, K2.
    rewrite K in K2. injection K2 as <-. contradiction.
  - pose proof (keeps_precs col off inp m (PClass cs) s (Some 0) eq_refl (or_intror eq_refl)) as K. rewrite E in K. congruence.
Qed.

Lemma sym_part_is : CG R_sym_part = PClass part_chars. Proof. reflexivity. Qed.
Lemma parts_all : forall ds c R, all_in part_chars ds -> ~ In c part_chars ->
  goes (PStar (PRule R_sym_part)) (ds ++ c :: R) (fun u => u = c :: R).
Proof.
  intros ds c R HD HC. apply star_all with (cs := part_chars); [| |exact HD|].
  - intros d R' Hd. apply goes_rule. rewrite sym_part_is. apply class_one. exact Hd.
  - intros d R' m s s' Hd HH H. apply fail_rule in H. destruct H as (m1 & s1 & _ & H). rewrite sym_part_is in H. eapply class_must; eauto.
  - intros t m s HH HS. destruct (runc m (PRule R_sym_part) s) as [s'|s'| |] eqn:E; auto.
    + apply run_rule in E. destruct E as (m1 & _ & E). rewrite sym_part_is in E.
      pose proof (class_stop t part_chars c R HC m1 s HH HS) as K. rewrite E in K. exact K.
    + pose proof (keeps_precs col off inp m (PRule R_sym_part) s (Some 0) eq_refl (or_intror eq_refl)) as K. rewrite E in K. destruct HS as [HS _]. congruence.
Qed.

Lemma digit_part : forall c, In c digit_chars -> In c part_chars.
Proof. intros c H. assert (K : incl digit_chars part_chars) by (intros x Hx; cbn in Hx |- *; repeat (destruct Hx as [<-|Hx]; [tauto|]); contradiction). apply K. exact H. Qed.

Lemma take_digits : forall t d ds R, all_in digit_chars (d :: ds) ->
  takes t (PRule R_integer_string) (d :: ds) (" "%char :: R) (HAppend (d :: ds)).
Proof.
  intros t d ds R HD.
  assert (HG : goes (PRule R_integer_string) ((d :: ds) ++ " "%char :: R) (fun u => u = " "%char :: R)).
  { apply goes_rule. change (CG R_integer_string) with (PPred (QDo TBlockStart) ⋅ PClass digit_chars ⋅ PStar (PRule R_sym_part) ⋅
      PPred (QDo TBlockEnd) ⋅ PAct (TDo [SStrBlock]) : cexp).
    eapply goes_seq; [apply goes_do|]. intros ? ->. eapply goes_seq; [apply class_one; apply HD; left; reflexivity|]. intros ? ->.
    eapply goes_seq; [apply parts_all; [intros c Hc; apply digit_part, HD; right; exact Hc|cbn; intuition discriminate]|]. intros ? ->.
    eapply goes_seq; [apply goes_do|]. intros ? ->. apply goes_act. }
  apply light_takes; [reflexivity|reflexivity|exists (Some 0); split; [reflexivity|auto]| |].
  - intros m s s' HH H. specialize (HG m s HH). rewrite H in HG. destruct HG as (? & HG & ->).
    destruct (run_integer _ _ _ _ _ _ H) as (u & v & L & (-> & HN)).
    assert (E : v = d :: ds); [|subst v; exact L].
    destruct L as [O _]. pose proof (over_here inp s s' v) as K.
    destruct O as [O1 O2]. destruct HH as [HH _]. destruct HG as [HG _]. rewrite HH, HG in O2. apply app_inv_tail in O2. congruence.
  - intros m s s' HH H. apply fail_rule in H. destruct H as (m1 & s1 & _ & H).
    change (CG R_integer_string) with (PPred (QDo TBlockStart) ⋅ PClass digit_chars ⋅ PStar (PRule R_sym_part) ⋅
      PPred (QDo TBlockEnd) ⋅ PAct (TDo [SStrBlock]) : cexp) in H.
    apply fail_seq in H. destruct H as (k1 & _ & [(sa & H)|(sa & Ha & H)]); [apply fail_do in H; contradiction|].
    apply run_pdo in Ha. destruct Ha as [Pa _].
    apply fail_seq in H. destruct H as (k2 & _ & [(sb & H)|(sb & _ & H)]).
    { eapply class_must; [|unfold here, ForwardLex.here; rewrite Pa; exact HH|exact H]. apply HD. left. reflexivity. }
    apply fail_seq in H. destruct H as (k3 & _ & [(sc & H)|(sc & _ & H)]); [apply fail_star in H; contradiction|].
    apply fail_seq in H. destruct H as (k4 & _ & [(sd & H)|(sd & _ & H)]); [apply fail_do in H; contradiction|apply fail_act in H; contradiction].
Qed.
Lemma no_float : forall t d ds R, all_in digit_chars (d :: ds) -> refuses t (PRule R_float_string) ((d :: ds) ++ " "%char :: R).
Proof.
  intros t d ds R HD m s HH [HS _].
  pose proof (keeps_precs col off inp m (PRule R_float_string) s (Some 0) eq_refl (or_intror eq_refl)) as HK.
  destruct (runc m (PRule R_float_string) s) as [s'|s'| |] eqn:E; auto; [|congruence].
  apply run_float in E. destruct E as (u & v & L & (-> & HF)). destruct L as [[_ O] _]. destruct HH as [HH _]. rewrite HH in O.
  destruct HF as [(c & a & dot & b & e & sign & d' & w & -> & HA & HO & HB & HE & _)|(a & d' & w & -> & HA & _)].
  - destruct HO as [-> | (x & -> & [<-|[]])].
    + rewrite <- !app_comm_cons, <- !app_assoc in O. cbn [app] in O. rewrite (app_assoc a b) in O.
      change (c :: (a ++ b) ++ e :: (sign ++ d' :: w) ++ skipn (pos s') inp) with ((c :: a ++ b) ++ e :: (sign ++ d' :: w) ++ skipn (pos s') inp) in O.
      apply (digits_stop (d :: ds)) in O; [|exact HD| |].
      * subst e. cbn in HE. intuition discriminate.
      * intros y [<-|Hy]; [apply HA; left; reflexivity|]. apply in_app_or in Hy. destruct Hy as [Hy|Hy]; [apply HA; right; exact Hy|apply HB; exact Hy].
      * intros K. cbn in HE, K. destruct HE as [<-|[<-|[]]]; intuition discriminate.
    + rewrite <- !app_comm_cons, <- !app_assoc in O. cbn [app] in O.
      match type of O with _ = c :: a ++ ?y => change (c :: a ++ y) with ((c :: a) ++ y) in O end.
      apply (digits_stop (d :: ds)) in O; [discriminate|exact HD|exact HA|cbn; intuition discriminate].
  - rewrite <- !app_assoc in O. cbn [app] in O. apply (digits_stop (d :: ds)) in O; [discriminate|exact HD|exact HA|cbn; intuition discriminate].
Qed.

Definition fact_int : cexp -> list tok -> verdict := tight (fun e w =>
  match e, w with
  | PRule R_float_string, [Ho 0 _; Kn _; Ho 9 _] => FFail
  | PRule R_integer_string, (Ho 0 _) :: w' => FTake 0 w'
  | _, _ => FNone
  end).
Lemma take_int : forall t d ds R, all_in digit_chars (d :: ds) -> gapfree R ->
  takes t (PRule R__atom) ((d :: ds) ++ B " ") R (HNode (T T_INTEGER [TStr (d :: ds)])).
Proof.
  intros t d ds R HD HG. open_gap R HG.
  pose proof (fun t => take_digits t d ds (c :: R') HD) as T1. pose proof (fun t => no_float t d ds (c :: R') HD) as T2.
  pose proof (HD d (or_introl eq_refl)) as K.
  assert (G : forall k, In k digit_chars -> d = k -> takes t (PRule R__atom) ((d :: ds) ++ B " ") (c :: R') (HNode (T T_INTEGER [TStr (d :: ds)]))).
  { intros k Hk E. unfold digit_chars in Hk. cbn in Hk.
    repeat (destruct Hk as [Hk|Hk]; [subst k d; clear K HD|]); [..|contradiction].
    all: match goal with |- ForwardLex.takes _ _ _ _ _ ((?k :: _) ++ _) _ _ =>
      eapply (take_of col off inp (two ds R') (one_eff (HAppend (k :: ds))) fact_int 60 (PRule R__atom) [Ho 0 k; Kn " "%char; Ho 9 c] t);
      [run_trun|reflexivity| |apply node_ok; run_node|text_; reflexivity|text_; reflexivity] end.
    all: obs_ ltac:(first [eapply ob_take; [cbn [one_eff]; text_; apply T1|text_; reflexivity]|apply ob_refuse; text_; apply T2]). }
  exact (G d K eq_refl).
Qed.
End Num.
