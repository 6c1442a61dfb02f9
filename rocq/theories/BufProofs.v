(** * Reading on demand gives the same match as having all bytes at hand *)
From Coq Require Import List Arith Lia Bool.
From Verif Require Import Peg PegProofs BufModel QuickModel.
Import ListNotations.

(** [data b] is an initial part of [M], which is one of [inp]. *)
Definition between {T} (b : buf T) (M inp : bytes) : Prop :=
  (exists g, M = m_data b ++ g) /\ (exists g, inp = M ++ g).

Definition ext {T} (b b' : buf T) : Prop := exists g, m_data b' = m_data b ++ g.

(** What is asked of a source: [holds b inp] says that the buffer [b] with its source stands for
    the bytes [inp]. *)
Record faithful {T} (src : source T) (holds : buf T -> bytes -> Prop) : Prop := {
  fa_prefix : forall b inp, holds b inp -> exists g, inp = m_data b ++ g;
  fa_refill : forall b inp, holds b inp ->
    exists ok b', refill src (List.length (m_data b)) b = Some (ok, b') /\ holds b' inp /\ ext b b' /\
      (if ok then List.length (m_data b) < List.length (m_data b')
       else m_data b' = m_data b /\ m_data b = inp);
  fa_commit : forall b inp p, holds b inp -> p <= List.length (m_data b) ->
    holds (commit p b) (skipn p inp) }.

Lemma ext_refl : forall {T} (b : buf T), ext b b.
Proof. intros. exists []. symmetry. apply app_nil_r. Qed.

Lemma ext_trans : forall {T} (a b c : buf T), ext a b -> ext b c -> ext a c.
Proof. intros T a b c (g & H) (h & H'). exists (g ++ h). rewrite H', H. apply eq_sym, app_assoc. Qed.

Lemma ext_len : forall {T} (a b : buf T), ext a b -> List.length (m_data a) <= List.length (m_data b).
Proof. intros T a b (g & H). rewrite H, app_length. lia. Qed.

Lemma between_ext : forall {T} (a b : buf T) M inp, ext a b -> between b M inp -> between a M inp.
Proof.
  intros T a b M inp (g & H) ((h & H') & K). split; [ | exact K ].
  exists (g ++ h). rewrite H', H. apply eq_sym, app_assoc.
Qed.

Lemma app_self : forall (l g : bytes), l = l ++ g -> g = [].
Proof. intros l g H. apply (f_equal (@List.length _)) in H. rewrite app_length in H. destruct g; [ auto | cbn in H; lia ]. Qed.

Lemma between_all : forall {T} (b : buf T) M inp, m_data b = inp -> between b M inp -> M = inp.
Proof.
  intros T b M inp E ((g & H) & (h & H')). rewrite E in H. rewrite H in H'.
  rewrite <- app_assoc in H'. apply app_self in H'. apply app_eq_nil in H'. destruct H' as [ -> _ ].
  rewrite H. apply app_nil_r.
Qed.

Section Sim.
Context {T : Type}.
Variable src : source T.
Variable holds : buf T -> bytes -> Prop.
Hypothesis FA : faithful src holds.
Context {R A Q U : Type}.
Variable G : R -> pexp R A Q.
Variable prun : Q -> nat -> option ascii -> U -> option (bool * U * list A).
Variable inp : bytes.

(** ** Static facts about the grammar *)

(** predicates that look at the current byte, predicates that always succeed *)
Variables (reads nf : Q -> bool).
Hypothesis reads_ok : forall q p c c' u, reads q = false -> prun q p c u = prun q p c' u.
Hypothesis nf_ok : forall q p c u b u' l, nf q = true -> prun q p c u = Some (b, u', l) -> b = true.

(** rules that look at the byte at their start before they fail / succeed *)
Variables (spr cpr : R -> bool).

Fixpoint cp (e : pexp R A Q) : bool :=
  match e with
  | PDot | PChar _ | PClass _ => true
  | PStr s => match s with [] => false | _ => true end
  | PRule r => cpr r
  | PSeq a b => cp a || cp b
  | PAlt a b => cp a && cp b
  | PStar a | PNot a => sp a
  | PQuery a => cp a && sp a
  | PPlus a | PAnd a | PErr a _ => cp a
  | PAct _ | PPred _ => false
  end
with sp (e : pexp R A Q) : bool :=
  match e with
  | PDot | PChar _ | PClass _ | PStr _ | PStar _ | PQuery _ | PAct _ => true
  | PRule r => spr r
  | PSeq a b => sp a && sp b
  | PAlt a b => sp a || sp b
  | PPlus a | PAnd a | PErr a _ => sp a
  | PNot a => cp a
  | PPred q => nf q
  end.

(** expressions that have looked at the byte where they fail *)
Fixpoint fp (e : pexp R A Q) : bool :=
  match e with
  | PDot | PChar _ | PClass _ | PStr _ | PStar _ | PQuery _ | PAct _ => true
  | PRule r => spr r
  | PSeq a b => fp a && fp b
  | PAlt _ b => fp b
  | PPlus a => fp a
  | PAnd a | PErr a _ => fp a
  | PNot _ => false
  | PPred q => nf q
  end.

(** a predicate that reads the current byte runs only where it has been looked at *)
Fixpoint okE (e : pexp R A Q) : bool :=
  match e with
  | PDot | PChar _ | PClass _ | PStr _ | PRule _ | PAct _ => true
  | PSeq a b | PAlt a b => okE a && okE b
  | PStar a | PPlus a | PQuery a | PAnd a | PNot a => okE a
  | PPred q => negb (reads q)
  | PErr a q => okE a && (negb (reads q) || fp a)
  end.

Hypothesis G_sp : forall r, spr r = true -> sp (G r) = true.
Hypothesis G_cp : forall r, cpr r = true -> cp (G r) = true.
Hypothesis G_ok : forall r, okE (G r) = true.

(** an invariant of the user state, relative to how far the buffer reaches *)
Variable uinv : nat -> U -> Prop.
Hypothesis uinv_up : forall n m u, n <= m -> uinv n u -> uinv m u.
Hypothesis uinv_step : forall n q p c u b u' l, p <= n -> uinv n u ->
  prun q p c u = Some (b, u', l) -> uinv n u'.

Definition probed (p : nat) (b : buf T) : Prop :=
  p < List.length (m_data b) \/ m_data b = inp.

Record good (s : pst A U) (b : buf T) : Prop := {
  g_holds : holds b inp;
  g_pos : pos s <= List.length (m_data b);
  g_user : uinv (List.length (m_data b)) (user s) }.

Lemma between_self : forall b, holds b inp -> between b inp inp.
Proof.
  intros b H. split; [ exact (fa_prefix _ _ FA _ _ H) | exists []; symmetry; apply app_nil_r ].
Qed.

Lemma probed_ext : forall p b b', holds b' inp -> ext b b' -> probed p b -> probed p b'.
Proof.
  intros p b b' H (g & E) [ L | L ].
  - left. rewrite E, app_length. lia.
  - right. destruct (fa_prefix _ _ FA _ _ H) as (h & K). rewrite E, L in K.
    rewrite <- app_assoc in K. apply app_self in K. apply app_eq_nil in K. destruct K as [ -> _ ].
    rewrite E, app_nil_r. exact L.
Qed.

Lemma probed_get : forall p b M, between b M inp -> probed p b -> nth_error (m_data b) p = nth_error M p.
Proof.
  intros p b M Hb [ L | L ].
  - destruct Hb as ((g & ->) & _). symmetry. apply nth_error_app1. exact L.
  - rewrite (between_all b M inp L Hb). rewrite L. reflexivity.
Qed.

Lemma good_up : forall (s s' : pst A U) b b', good s b -> ext b b' -> holds b' inp ->
  uinv (List.length (m_data b')) (user s') -> pos s' = pos s -> good s' b'.
Proof.
  intros s s' b b' [ G1 G2 G3 ] E H HU Ep. pose proof (ext_len _ _ E). split; auto. lia.
Qed.

Lemma fetch_ok : forall p b, holds b inp -> p <= List.length (m_data b) ->
  exists o b', fetch src p b = Some (o, b') /\ holds b' inp /\ ext b b' /\ probed p b' /\
    (o <> None -> p < List.length (m_data b')) /\
    (forall M, between b' M inp -> nth_error M p = o).
Proof.
  intros p b Hb Hp. unfold fetch. destruct (Nat.ltb_spec p (List.length (m_data b))) as [ L | L ].
  - do 2 eexists. split; [ reflexivity | ].
    split; [ exact Hb | ]. split; [ apply ext_refl | ]. split; [ left; exact L | ]. split; [ auto | ].
    intros M ((g & ->) & _). apply nth_error_app1. exact L.
  - assert (p = List.length (m_data b)) as -> by lia.
    destruct (fa_refill _ _ FA _ _ Hb) as (ok & b' & E & Hb' & X & K). rewrite E.
    do 2 eexists. split; [ reflexivity | ]. split; [ exact Hb' | ]. split; [ exact X | ].
    destruct ok.
    + split; [ left; exact K | ]. split; [ auto | ].
      intros M ((g & ->) & _). apply nth_error_app1. exact K.
    + destruct K as [ K1 K2 ]. split; [ right; congruence | ]. split; [ congruence | ].
      intros M HM. rewrite (between_all b' M inp) by (auto; congruence).
      rewrite K2. apply nth_error_None. lia.
Qed.

Notation runM M := (run G (get_of M) prun).

(** what is shown of each outcome *)
Definition sim (n : nat) (e : pexp R A Q) (s : pst A U) (b : buf T) : Prop :=
  match brun src G prun n e s b with
  | BOk s' b' => good s' b' /\ ext b b' /\ pos s <= pos s' /\ (cp e = true -> probed (pos s) b') /\
      forall M, between b' M inp -> runM M n e s = ROk s'
  | BFail s' b' => good s' b' /\ ext b b' /\ pos s <= pos s' /\ (sp e = true -> probed (pos s) b') /\
      (fp e = true -> probed (pos s') b') /\
      forall M, between b' M inp -> runM M n e s = RFail s'
  | BStuck => runM inp n e s = RStuck
  | BFuel => runM inp n e s = RFuel
  end.

Lemma pos_probed : forall (s s' : pst A U) b, pos s < pos s' -> good s' b -> probed (pos s) b.
Proof. intros s s' b H [ _ K _ ]. left. lia. Qed.

Lemma match_one_sim : forall n (e : pexp R A Q) (f : ascii -> bool) (s : pst A U) (b : buf T),
  (forall M : bytes, runM M (S n) e s = match nth_error M (pos s) with
     Some c => if f c then ROk (advance s) else RFail s | None => RFail s end) ->
  brun src G prun (S n) e s b = bmatch_one src f s b ->
  good s b -> sim (S n) e s b.
Proof.
  intros n e f s b E1 E2 Gd. unfold sim. rewrite E2. unfold bmatch_one.
  destruct Gd as [ G1 G2 G3 ].
  destruct (fetch_ok (pos s) b G1 G2) as (o & b' & -> & Hh & X & P & L & V).
  pose proof (ext_len _ _ X) as XL.
  assert (Gf : good s b') by (split; [ exact Hh | lia | eapply uinv_up; [ exact XL | exact G3 ] ]).
  destruct o as [ c | ]; [ destruct (f c) eqn:Ef | ].
  - split; [ | split; [ exact X | split; [ cbn; lia | split; [ auto | ] ] ] ].
    + split; [ exact Hh | cbn; apply L; discriminate | cbn; eapply uinv_up; [ exact XL | exact G3 ] ].
    + intros M HM. rewrite E1, (V M HM), Ef. reflexivity.
  - repeat (split; [ auto | ]). intros M HM. rewrite E1, (V M HM), Ef. reflexivity.
  - repeat (split; [ auto | ]). intros M HM. rewrite E1, (V M HM). reflexivity.
Qed.

Lemma match_str_sim : forall str p0 p b, holds b inp -> p <= List.length (m_data b) ->
  (p0 = p \/ p0 < p) ->
  match bmatch_str src str p0 p b with
  | None => False
  | Some (inl q, b') => holds b' inp /\ ext b b' /\ p <= q /\ q <= List.length (m_data b') /\
      (str <> [] -> p < q) /\
      forall M, between b' M inp -> match_str (get_of M) str p0 p = inl q
  | Some (inr q, b') => holds b' inp /\ ext b b' /\ p0 <= q /\ probed p0 b' /\ probed q b' /\
      q <= List.length (m_data b') /\
      forall M, between b' M inp -> match_str (get_of M) str p0 p = inr q
  end.
Proof.
  induction str as [ | c str IH ]; intros p0 p b Hb Hp H0; cbn [bmatch_str].
  - split; [ exact Hb | ]. split; [ apply ext_refl | ]. repeat (split; [ auto || congruence | ]). reflexivity.
  - destruct (fetch_ok p b Hb Hp) as (o & b' & -> & Hh & X & P & L & V).
    pose proof (ext_len _ _ X) as XL.
    assert (P0 : probed p0 b') by (destruct H0 as [ -> | H0 ]; [ exact P | left; lia ]).
    destruct o as [ c' | ]; [ destruct (beq c c') eqn:Ec | ].
    + specialize (IH p0 (S p) b' Hh (L ltac:(discriminate)) ltac:(lia)).
      destruct (bmatch_str src str p0 (S p) b') as [ [ [ q | q ] b2 ] | ]; [ | | exact IH ].
      * destruct IH as (I1 & I2 & I3 & I4 & I5 & I6).
        split; [ exact I1 | ]. split; [ eapply ext_trans; eauto | ]. split; [ lia | ]. split; [ exact I4 | ].
        split; [ lia | ]. intros M HM. cbn [match_str]. unfold get_of at 1.
        rewrite (V M (between_ext _ _ _ _ I2 HM)), Ec. auto.
      * destruct IH as (I1 & I2 & I3 & I4 & I5 & I6 & I7).
        split; [ exact I1 | ]. split; [ eapply ext_trans; eauto | ]. repeat (split; [ auto | ]).
        intros M HM. cbn [match_str]. unfold get_of at 1.
        rewrite (V M (between_ext _ _ _ _ I2 HM)), Ec. auto.
    + split; [ exact Hh | ]. split; [ exact X | ]. split; [ lia | ]. split; [ exact P0 | ]. split; [ exact P0 | ].
      split; [ lia | ]. intros M HM. cbn [match_str]. unfold get_of at 1. rewrite (V M HM), Ec. reflexivity.
    + split; [ exact Hh | ]. split; [ exact X | ]. split; [ lia | ]. split; [ exact P0 | ]. split; [ exact P | ].
      split; [ lia | ]. intros M HM. cbn [match_str]. unfold get_of at 1. rewrite (V M HM). reflexivity.
Qed.

Lemma pred_sim : forall q s b, good s b -> (reads q = true -> probed (pos s) b) ->
  match brun_pred prun q s b with
  | BOk s' b' => good s' b' /\ b' = b /\ pos s' = pos s /\
      forall M, between b' M inp -> run_pred (get_of M) prun q s = ROk s'
  | BFail s' b' => good s' b' /\ b' = b /\ pos s' = pos s /\ nf q = false /\
      forall M, between b' M inp -> run_pred (get_of M) prun q s = RFail s'
  | BStuck => run_pred (get_of inp) prun q s = RStuck
  | BFuel => False
  end.
Proof.
  intros q s b Gd Hr.
  assert (V : forall M, between b M inp ->
    prun q (pos s) (get_of M (pos s)) (user s) = prun q (pos s) (nth_error (m_data b) (pos s)) (user s)).
  { intros M HM. destruct (reads q) eqn:Eq.
    - rewrite (probed_get _ _ _ HM (Hr eq_refl)). reflexivity.
    - apply reads_ok. exact Eq. }
  unfold brun_pred. destruct (prun q (pos s) (nth_error (m_data b) (pos s)) (user s)) as [ [ [ v u ] l ] | ] eqn:E.
  - destruct Gd as [ G1 G2 G3 ]. assert (Hu : uinv (List.length (m_data b)) u) by (eapply uinv_step; eauto).
    destruct v.
    + split; [ split; auto | ]. repeat (split; [ reflexivity | ]).
      intros M HM. unfold run_pred. rewrite (V M HM). reflexivity.
    + split; [ split; auto | ]. repeat (split; [ reflexivity | ]).
      split.
      * destruct (nf q) eqn:En; [ | reflexivity ]. pose proof (nf_ok _ _ _ _ _ _ _ En E). discriminate.
      * intros M HM. unfold run_pred. rewrite (V M HM). reflexivity.
  - unfold run_pred. rewrite (V inp) by (apply between_self; apply Gd). reflexivity.
Qed.

Lemma restore_good : forall (s s1 : pst A U) b b1, good s b -> ext b b1 -> good s1 b1 -> good (restore s s1) b1.
Proof.
  intros s s1 b b1 [ A1 A2 A3 ] X [ B1 B2 B3 ]. pose proof (ext_len _ _ X). split; cbn; auto. lia.
Qed.

Lemma or_pos : forall (s s' : pst A U) b, good s' b -> pos s <= pos s' -> probed (pos s) b \/ pos s' = pos s.
Proof.
  intros s s' b Gd L. destruct (Nat.eq_dec (pos s') (pos s)) as [ E | E ]; [ auto | ].
  left. apply (pos_probed s s'); [ lia | exact Gd ].
Qed.

Lemma brun_sim : forall n e s b, okE e = true -> good s b -> sim n e s b.
Proof.
  induction n as [ | n IH ]; intros e s b He Gd; [ reflexivity | ].
  destruct e as [ | c | str | cs | r | e1 e2 | e1 e2 | e1 | e1 | e1 | e1 | e1 | a | q | e1 q ].
  - eapply match_one_sim; [ | reflexivity | exact Gd ]. intros M. cbn [run]. unfold get_of.
    destruct (nth_error M (pos s)); reflexivity.
  - eapply match_one_sim; [ | reflexivity | exact Gd ]. intros M. cbn [run]. unfold get_of.
    destruct (nth_error M (pos s)); reflexivity.
  - unfold sim. cbn [brun].
    pose proof (match_str_sim str (pos s) (pos s) b (g_holds _ _ Gd) (g_pos _ _ Gd) (or_introl eq_refl)) as K.
    destruct (bmatch_str src str (pos s) (pos s) b) as [ [ [ q | q ] b' ] | ]; [ | | contradiction ].
    + destruct K as (K1 & K2 & K3 & K4 & K5 & K6). pose proof (ext_len _ _ K2) as XL.
      split; [ split; cbn; auto; eapply uinv_up; [ exact XL | apply Gd ] | ].
      split; [ exact K2 | ]. split; [ exact K3 | ]. split.
      * cbn [cp]. intros Hs. left. destruct str; [ discriminate | ]. specialize (K5 ltac:(discriminate)). lia.
      * intros M HM. cbn [run]. rewrite (K6 M HM). reflexivity.
    + destruct K as (K1 & K2 & K3 & K4 & K5 & K6 & K7). pose proof (ext_len _ _ K2) as XL.
      split; [ split; cbn; auto; eapply uinv_up; [ exact XL | apply Gd ] | ].
      split; [ exact K2 | ]. split; [ exact K3 | ]. split; [ auto | ]. split; [ auto | ].
      intros M HM. cbn [run]. rewrite (K7 M HM). reflexivity.
  - eapply match_one_sim; [ | reflexivity | exact Gd ]. intros M. cbn [run]. unfold get_of.
    destruct (nth_error M (pos s)); reflexivity.
  - (* PRule *)
    unfold sim. cbn [brun run cp sp fp]. specialize (IH (G r) s b (G_ok r) Gd). unfold sim in IH.
    destruct (brun src G prun n (G r) s b) as [ s1 b1 | s1 b1 | | ].
    + destruct IH as (I1 & I2 & I3 & I4 & I5).
      split; [ exact I1 | ]. split; [ exact I2 | ]. split; [ exact I3 | ]. split; [ intros H; apply I4, G_cp, H | ].
      intros M HM. rewrite (I5 M HM). reflexivity.
    + destruct IH as (I1 & I2 & I3 & I4 & I5 & I6).
      split; [ eapply restore_good; eauto | ]. split; [ exact I2 | ]. split; [ cbn; lia | ].
      split; [ intros H; apply I4, G_sp, H | ]. split; [ intros H; apply I4, G_sp, H | ].
      intros M HM. rewrite (I6 M HM). reflexivity.
    + rewrite IH. reflexivity.
    + rewrite IH. reflexivity.
  - (* PSeq *)
    cbn [okE] in He. apply andb_true_iff in He. destruct He as [ He1 He2 ].
    unfold sim. cbn [brun run cp sp fp]. pose proof (IH e1 s b He1 Gd) as IH1. unfold sim in IH1.
    destruct (brun src G prun n e1 s b) as [ s1 b1 | s1 b1 | | ].
    + destruct IH1 as (I1 & I2 & I3 & I4 & I5).
      pose proof (IH e2 s1 b1 He2 I1) as IH2. unfold sim in IH2.
      destruct (brun src G prun n e2 s1 b1) as [ s2 b2 | s2 b2 | | ].
      * destruct IH2 as (J1 & J2 & J3 & J4 & J5).
        split; [ exact J1 | ]. split; [ eapply ext_trans; eauto | ]. split; [ lia | ].
        split.
        -- intros H. apply orb_true_iff in H. destruct H as [ H | H ].
           ++ eapply probed_ext; [ apply J1 | exact J2 | auto ].
           ++ destruct (or_pos s s1 b1 I1 I3) as [ K | K ].
              ** eapply probed_ext; [ apply J1 | exact J2 | exact K ].
              ** rewrite <- K. auto.
        -- intros M HM. rewrite (I5 M) by (eapply between_ext; eauto). auto.
      * destruct IH2 as (J1 & J2 & J3 & J4 & J5 & J6).
        split; [ exact J1 | ]. split; [ eapply ext_trans; eauto | ]. split; [ lia | ].
        split; [ | split ].
        -- intros H. apply andb_true_iff in H. destruct H as [ H1 H2 ].
           destruct (or_pos s s1 b1 I1 I3) as [ K | K ].
           ++ eapply probed_ext; [ apply J1 | exact J2 | exact K ].
           ++ rewrite <- K. auto.
        -- intros H. apply andb_true_iff in H. destruct H as [ H1 H2 ]. auto.
        -- intros M HM. rewrite (I5 M) by (eapply between_ext; eauto). auto.
      * rewrite (I5 inp) by (apply between_self; apply I1). exact IH2.
      * rewrite (I5 inp) by (apply between_self; apply I1). exact IH2.
    + destruct IH1 as (I1 & I2 & I3 & I4 & I5 & I6).
      split; [ exact I1 | ]. split; [ exact I2 | ]. split; [ exact I3 | ].
      split; [ intros H; apply andb_true_iff in H; apply I4, H | ].
      split; [ intros H; apply andb_true_iff in H; apply I5, H | ].
      intros M HM. rewrite (I6 M HM). reflexivity.
    + rewrite IH1. reflexivity.
    + rewrite IH1. reflexivity.
  - (* PAlt *)
    cbn [okE] in He. apply andb_true_iff in He. destruct He as [ He1 He2 ].
    unfold sim. cbn [brun run cp sp fp]. pose proof (IH e1 s b He1 Gd) as IH1. unfold sim in IH1.
    destruct (brun src G prun n e1 s b) as [ s1 b1 | s1 b1 | | ].
    + destruct IH1 as (I1 & I2 & I3 & I4 & I5).
      split; [ exact I1 | ]. split; [ exact I2 | ]. split; [ exact I3 | ].
      split; [ intros H; apply andb_true_iff in H; apply I4, H | ].
      intros M HM. rewrite (I5 M HM). reflexivity.
    + destruct IH1 as (I1 & I2 & I3 & I4 & I5 & I6).
      pose proof (IH e2 (restore s s1) b1 He2 (restore_good _ _ _ _ Gd I2 I1)) as IH2. unfold sim in IH2.
      destruct (brun src G prun n e2 (restore s s1) b1) as [ s2 b2 | s2 b2 | | ].
      * destruct IH2 as (J1 & J2 & J3 & J4 & J5).
        split; [ exact J1 | ]. split; [ eapply ext_trans; eauto | ]. split; [ exact J3 | ].
        split; [ intros H; apply andb_true_iff in H; apply J4, H | ].
        intros M HM. rewrite (I6 M) by (eapply between_ext; eauto). auto.
      * destruct IH2 as (J1 & J2 & J3 & J4 & J5 & J6).
        split; [ exact J1 | ]. split; [ eapply ext_trans; eauto | ]. split; [ exact J3 | ].
        split; [ | split; [ exact J5 | ] ].
        -- intros H. apply orb_true_iff in H. destruct H as [ H | H ].
           ++ eapply probed_ext; [ apply J1 | exact J2 | auto ].
           ++ apply J4, H.
        -- intros M HM. rewrite (I6 M) by (eapply between_ext; eauto). auto.
      * rewrite (I6 inp) by (apply between_self; apply I1). exact IH2.
      * rewrite (I6 inp) by (apply between_self; apply I1). exact IH2.
    + rewrite IH1. reflexivity.
    + rewrite IH1. reflexivity.
  - (* PStar *)
    cbn [okE] in He. unfold sim. cbn [brun run]. pose proof (IH e1 s b He Gd) as IH1. unfold sim in IH1.
    destruct (brun src G prun n e1 s b) as [ s1 b1 | s1 b1 | | ].
    + destruct IH1 as (I1 & I2 & I3 & I4 & I5).
      pose proof (IH (PStar e1) s1 b1 He I1) as IH2. unfold sim in IH2. cbn [cp sp fp] in *.
      destruct (brun src G prun n (PStar e1) s1 b1) as [ s2 b2 | s2 b2 | | ].
      * destruct IH2 as (J1 & J2 & J3 & J4 & J5).
        split; [ exact J1 | ]. split; [ eapply ext_trans; eauto | ]. split; [ lia | ].
        split.
        -- intros H. destruct (or_pos s s1 b1 I1 I3) as [ K | K ].
           ++ eapply probed_ext; [ apply J1 | exact J2 | exact K ].
           ++ rewrite <- K. auto.
        -- intros M HM. rewrite (I5 M) by (eapply between_ext; eauto). auto.
      * destruct IH2 as (J1 & J2 & J3 & J4 & J5 & J6).
        split; [ exact J1 | ]. split; [ eapply ext_trans; eauto | ]. split; [ lia | ].
        split.
        -- intros H. destruct (or_pos s s1 b1 I1 I3) as [ K | K ].
           ++ eapply probed_ext; [ apply J1 | exact J2 | exact K ].
           ++ rewrite <- K. auto.
        -- split; [ exact J5 | ]. intros M HM. rewrite (I5 M) by (eapply between_ext; eauto). auto.
      * rewrite (I5 inp) by (apply between_self; apply I1). exact IH2.
      * rewrite (I5 inp) by (apply between_self; apply I1). exact IH2.
    + destruct IH1 as (I1 & I2 & I3 & I4 & I5 & I6).
      split; [ eapply restore_good; eauto | ]. split; [ exact I2 | ]. split; [ cbn; lia | ].
      split; [ exact I4 | ]. intros M HM. rewrite (I6 M HM). reflexivity.
    + rewrite IH1. reflexivity.
    + rewrite IH1. reflexivity.
  - (* PPlus *)
    cbn [okE] in He. unfold sim. cbn [brun run]. pose proof (IH e1 s b He Gd) as IH1. unfold sim in IH1.
    destruct (brun src G prun n e1 s b) as [ s1 b1 | s1 b1 | | ].
    + destruct IH1 as (I1 & I2 & I3 & I4 & I5).
      pose proof (IH (PStar e1) s1 b1 He I1) as IH2. unfold sim in IH2. cbn [cp sp fp] in *.
      assert (NF : forall s2 b2, brun src G prun n (PStar e1) s1 b1 = BFail s2 b2 -> False).
      { clear. revert s1 b1. induction n as [ | n IHn ]; intros s1 b1 s2 b2; cbn [brun]; [ discriminate | ].
        destruct (brun src G prun n e1 s1 b1) as [ s3 b3 | s3 b3 | | ]; try discriminate. apply IHn. }
      destruct (brun src G prun n (PStar e1) s1 b1) as [ s2 b2 | s2 b2 | | ].
      * destruct IH2 as (J1 & J2 & J3 & J4 & J5).
        split; [ exact J1 | ]. split; [ eapply ext_trans; eauto | ]. split; [ lia | ].
        split; [ intros H; eapply probed_ext; [ apply J1 | exact J2 | auto ] | ].
        intros M HM. rewrite (I5 M) by (eapply between_ext; eauto). auto.
      * exfalso. eapply NF. reflexivity.
      * rewrite (I5 inp) by (apply between_self; apply I1). exact IH2.
      * rewrite (I5 inp) by (apply between_self; apply I1). exact IH2.
    + destruct IH1 as (I1 & I2 & I3 & I4 & I5 & I6).
      split; [ exact I1 | ]. split; [ exact I2 | ]. split; [ exact I3 | ].
      split; [ exact I4 | ]. split; [ exact I5 | ]. intros M HM. rewrite (I6 M HM). reflexivity.
    + rewrite IH1. reflexivity.
    + rewrite IH1. reflexivity.
  - (* PQuery *)
    cbn [okE] in He. unfold sim. cbn [brun run cp sp fp]. pose proof (IH e1 s b He Gd) as IH1. unfold sim in IH1.
    destruct (brun src G prun n e1 s b) as [ s1 b1 | s1 b1 | | ].
    + destruct IH1 as (I1 & I2 & I3 & I4 & I5).
      split; [ exact I1 | ]. split; [ exact I2 | ]. split; [ exact I3 | ].
      split; [ intros H; apply andb_true_iff in H; apply I4, H | ].
      intros M HM. rewrite (I5 M HM). reflexivity.
    + destruct IH1 as (I1 & I2 & I3 & I4 & I5 & I6).
      split; [ eapply restore_good; eauto | ]. split; [ exact I2 | ]. split; [ cbn; lia | ].
      split; [ intros H; apply andb_true_iff in H; apply I4, H | ].
      intros M HM. rewrite (I6 M HM). reflexivity.
    + rewrite IH1. reflexivity.
    + rewrite IH1. reflexivity.
  - (* PAnd *)
    cbn [okE] in He. unfold sim. cbn [brun run cp sp fp]. pose proof (IH e1 s b He Gd) as IH1. unfold sim in IH1.
    destruct (brun src G prun n e1 s b) as [ s1 b1 | s1 b1 | | ].
    + destruct IH1 as (I1 & I2 & I3 & I4 & I5).
      split; [ eapply restore_good; eauto | ]. split; [ exact I2 | ]. split; [ cbn; lia | ].
      split; [ exact I4 | ]. intros M HM. rewrite (I5 M HM). reflexivity.
    + destruct IH1 as (I1 & I2 & I3 & I4 & I5 & I6).
      split; [ exact I1 | ]. split; [ exact I2 | ]. split; [ exact I3 | ].
      split; [ exact I4 | ]. split; [ exact I5 | ]. intros M HM. rewrite (I6 M HM). reflexivity.
    + rewrite IH1. reflexivity.
    + rewrite IH1. reflexivity.
  - (* PNot *)
    cbn [okE] in He. unfold sim. cbn [brun run cp sp fp]. pose proof (IH e1 s b He Gd) as IH1. unfold sim in IH1.
    destruct (brun src G prun n e1 s b) as [ s1 b1 | s1 b1 | | ].
    + destruct IH1 as (I1 & I2 & I3 & I4 & I5).
      split; [ exact I1 | ]. split; [ exact I2 | ]. split; [ exact I3 | ].
      split; [ exact I4 | ]. split; [ discriminate | ]. intros M HM. rewrite (I5 M HM). reflexivity.
    + destruct IH1 as (I1 & I2 & I3 & I4 & I5 & I6).
      split; [ eapply restore_good; eauto | ]. split; [ exact I2 | ]. split; [ cbn; lia | ].
      split; [ exact I4 | ]. intros M HM. rewrite (I6 M HM). reflexivity.
    + rewrite IH1. reflexivity.
    + rewrite IH1. reflexivity.
  - (* PAct *)
    unfold sim. cbn [brun run cp]. split; [ split; cbn; apply Gd | ]. split; [ apply ext_refl | ].
    split; [ cbn; lia | ]. split; [ discriminate | ]. reflexivity.
  - (* PPred *)
    cbn [okE] in He. apply negb_true_iff in He.
    unfold sim. cbn [brun run cp sp fp].
    pose proof (pred_sim q s b Gd ltac:(congruence)) as K.
    destruct (brun_pred prun q s b) as [ s1 b1 | s1 b1 | | ]; [ | | exact K | contradiction ].
    + destruct K as (K1 & -> & K3 & K4).
      split; [ exact K1 | ]. split; [ apply ext_refl | ]. split; [ lia | ]. split; [ discriminate | exact K4 ].
    + destruct K as (K1 & -> & K3 & K4 & K5).
      split; [ exact K1 | ]. split; [ apply ext_refl | ]. split; [ lia | ].
      split; [ congruence | split; [ congruence | exact K5 ] ].
  - (* PErr *)
    cbn [okE] in He. apply andb_true_iff in He. destruct He as [ He1 He2 ].
    unfold sim. cbn [brun run cp sp fp]. pose proof (IH e1 s b He1 Gd) as IH1. unfold sim in IH1.
    destruct (brun src G prun n e1 s b) as [ s1 b1 | s1 b1 | | ].
    + destruct IH1 as (I1 & I2 & I3 & I4 & I5).
      split; [ exact I1 | ]. split; [ exact I2 | ]. split; [ exact I3 | ].
      split; [ exact I4 | ]. intros M HM. rewrite (I5 M HM). reflexivity.
    + destruct IH1 as (I1 & I2 & I3 & I4 & I5 & I6).
      pose proof (pred_sim q s1 b1 I1) as K.
      specialize (K ltac:(intros Hq; rewrite Hq in He2; exact (I5 He2))).
      destruct (brun_pred prun q s1 b1) as [ s2 b2 | s2 b2 | | ]; [ | | | contradiction ].
      * destruct K as (K1 & -> & K3 & K4).
        split; [ exact K1 | ]. split; [ exact I2 | ]. split; [ lia | ]. split; [ exact I4 | ].
        split; [ rewrite K3; exact I5 | ]. intros M HM. rewrite (I6 M HM), (K4 M HM). reflexivity.
      * destruct K as (K1 & -> & K3 & K4 & K5).
        split; [ exact K1 | ]. split; [ exact I2 | ]. split; [ lia | ]. split; [ exact I4 | ].
        split; [ rewrite K3; exact I5 | ]. intros M HM. rewrite (I6 M HM), (K5 M HM). reflexivity.
      * rewrite (I6 inp) by (apply between_self; apply I1). rewrite K. reflexivity.
    + rewrite IH1. reflexivity.
    + rewrite IH1. reflexivity.
Qed.

End Sim.
