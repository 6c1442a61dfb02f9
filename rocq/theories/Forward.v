(** * Predicting matches on inputs that are known in part

    An input is described by known bytes and "holes": texts of which only the
    first byte is known.  [trun] computes how a match of an expression goes on
    such an input.  Where it can not know, it asks [fact], and collects what
    that answer has to be justified by ([oblig], [ob]); [trun_sound] relates the
    prediction to the machine.  The prediction is about matches that end: that
    they do is proved elsewhere. *)
From Coq Require Import List Bool Arith Ascii String Lia.
From Verif Require Import Peg PegProofs QuickModel CypherSyntax CypherGrammar OperModel ErrModel CypherMatch
  AstTypes AstModel CypherExec CypherParse CypherSpec TraceSpec.
Import ListNotations.

Inductive tok := Kn (c : ascii) | Ho (i : nat) (c : ascii).
(** actions: one action recorded where [w] is still to come, or those of hole [i] *)
Inductive item := TA (a : action) (w : list tok) | TH (i : nat).
Record tst := mkt { t_op : option oper; t_prs : list nat }.
(** what is known about an expression at a place: nothing; it takes hole [i] and
    leaves [w]; it succeeds without consuming or recording anything; it fails *)
Inductive verdict := FNone | FTake (i : nat) (w : list tok) | FPass | FFail.
Record oblig := mko { o_exp : cexp; o_at : list tok; o_st : tst; o_verdict : verdict }.
(** [pl]: none of the rules [callish] is used *)
Inductive tres :=
| TOk (w : list tok) (t : tst) (tr : list item) (pl : bool) (obs : list oblig)
| TFail (t : tst) (obs : list oblig)
| TStuck.

Definition first_of (w : list tok) : option ascii :=
  match w with [] => None | Kn c :: _ => Some c | Ho _ c :: _ => Some c end.

(** consume the known byte at the front; a hole can not be entered *)
Definition eat (w : list tok) (t : tst) : tres :=
  match w with Kn _ :: w' => TOk w' t [] true [] | _ => TStuck end.

Fixpoint tstr (str : bytes) (w : list tok) (t : tst) : tres :=
  match str with
  | [] => TOk w t [] true []
  | c :: str' =>
      match w with
      | [] => TFail t []
      | Kn c' :: w' => if beq c c' then tstr str' w' t else TFail t []
      | Ho _ c' :: _ => if beq c c' then TStuck else TFail t []
      end
  end.

Definition tpred (q : pred) (w : list tok) (t : tst) : tres :=
  match q with
  | QDo a => TOk w t [TA a w] true []
  | QOp o => TOk w (mkt (Some o) (t_prs t)) [] true []
  | QPrecChk =>
      match t_op t with
      | None => TStuck
      | Some o => if Nat.leb (hd 0 (t_prs t)) (oprec o) then TOk w t [] true [] else TFail t []
      end
  | QPrecPush =>
      match t_op t with
      | None => TStuck
      | Some o => TOk w (mkt (t_op t) (next_prec o :: t_prs t)) [] true []
      end
  | QPrecPushTop => TOk w (mkt (t_op t) (0 :: t_prs t)) [] true []
  | QPrecPop => TOk w (mkt (t_op t) (tl (t_prs t))) [] true []
  | QLineStart | QRecordError | QErr _ => TOk w t [] true []
  | QConst b => if b then TOk w t [] true [] else TFail t []
  end.

(** rules that are treated apart: comments, skipped input *)
Definition callish (r : rule) : bool :=
  match r with
  | R_comment | R_skip_to_directive | R_skip_to_statement | R_skip_to_clause => true
  | _ => false
  end.

(** [x] with the obligations [obs] of what was tried before *)
Definition owing (obs : list oblig) (x : tres) : tres :=
  match x with
  | TOk w t tr pl o => TOk w t tr pl (obs ++ o)
  | TFail t o => TFail t (obs ++ o)
  | TStuck => TStuck
  end.
Definition after (tr : list item) (pl : bool) (obs : list oblig) (x : tres) : tres :=
  match x with
  | TOk w t tr' pl' o => TOk w t (tr ++ tr') (pl && pl') (obs ++ o)
  | TFail t o => TFail t (obs ++ o)
  | TStuck => TStuck
  end.

Section Trun.
Variable fact : cexp -> list tok -> verdict.

Fixpoint trun (n : nat) (e : cexp) (w : list tok) (t : tst) {struct n} : tres :=
  match n with
  | 0 => TStuck
  | S n =>
    match fact e w with
    | FTake i w' => TOk w' (mkt None (t_prs t)) [TH i] true [mko e w t (FTake i w')]
    | FPass => TOk w t [] true [mko e w t FPass]
    | FFail => TFail (mkt None (t_prs t)) [mko e w t FFail]
    | FNone =>
    match e with
    | PDot => match first_of w with Some _ => eat w t | None => TFail t [] end
    | PChar c => match first_of w with Some c' => if beq c c' then eat w t else TFail t [] | None => TFail t [] end
    | PStr str => tstr str w t
    | PClass cs => match first_of w with Some c' => if in_class cs c' then eat w t else TFail t [] | None => TFail t [] end
    | PRule r =>
        match trun n (CG r) w t with
        | TOk w' t' tr pl o => TOk w' t' tr (negb (callish r) && pl) o
        | x => x
        end
    | PSeq e1 e2 =>
        match trun n e1 w t with
        | TOk w1 t1 tr1 pl1 o1 => after tr1 pl1 o1 (trun n e2 w1 t1)
        | x => x
        end
    | PAlt e1 e2 =>
        match trun n e1 w t with
        | TFail t1 o1 => owing o1 (trun n e2 w t1)
        | x => x
        end
    | PStar e1 =>
        match trun n e1 w t with
        | TOk w1 t1 tr1 pl1 o1 => after tr1 pl1 o1 (trun n (PStar e1) w1 t1)
        | TFail t1 o1 => TOk w t1 [] true o1
        | x => x
        end
    | PPlus e1 =>
        match trun n e1 w t with
        | TOk w1 t1 tr1 pl1 o1 => after tr1 pl1 o1 (trun n (PStar e1) w1 t1)
        | x => x
        end
    | PQuery e1 =>
        match trun n e1 w t with
        | TFail t1 o1 => TOk w t1 [] true o1
        | x => x
        end
    | PAnd e1 =>
        match trun n e1 w t with
        | TOk _ t1 _ _ o1 => TOk w t1 [] true o1
        | x => x
        end
    | PNot e1 =>
        match trun n e1 w t with
        | TOk _ t1 _ _ o1 => TFail t1 o1
        | TFail t1 o1 => TOk w t1 [] true o1
        | x => x
        end
    | PAct a => TOk w t [TA a w] true []
    | PPred q => tpred q w t
    | PErr e1 q =>
        match trun n e1 w t with
        | TFail t1 o1 =>
            match tpred q w t1 with
            | TOk _ t2 _ _ _ => TFail t2 o1
            | _ => TStuck
            end
        | x => x
        end
    end
    end
  end.
End Trun.

Section Sound.
Variables (col : coloring) (off : position) (inp : bytes).
Notation runc := (run CG (get_of inp) (cprun col off)).
Notation vis := (visits col off inp).
Notation cst := (pst action cuser).
Notation visit := (rule * nat * nat)%type.

(** the text of a hole after its first byte *)
Variable rest_of : nat -> bytes.
(** what is known of the actions of a hole *)
Variable HT : nat -> list (action * nat) -> Prop.

Definition text1 (x : tok) : bytes := match x with Kn c => [c] | Ho i c => c :: rest_of i end.
Definition text (w : list tok) : bytes := flat_map text1 w.
Definition at_toks (p : nat) (w : list tok) : Prop := skipn p inp = text w /\ p <= List.length inp.
Definition same (u : cuser) (t : tst) : Prop :=
  c_precs u = t_prs t /\ match t_op t with Some o => c_op u = Some o | None => True end.
Definition where_ (w : list tok) : nat := List.length inp - List.length (text w).
Definition plain (l : list visit) : Prop := Forall (fun v => callish (fst (fst v)) = false) l.

Inductive traced : list item -> list (action * nat) -> Prop :=
| tr_nil : traced [] []
| tr_act : forall a w tr l, traced tr l -> traced (TA a w :: tr) ((a, where_ w) :: l)
| tr_hole : forall i l1 tr l, HT i l1 -> traced tr l -> traced (TH i :: tr) (l1 ++ l).

Lemma traced_app : forall tr1 l1 tr2 l2, traced tr1 l1 -> traced tr2 l2 -> traced (tr1 ++ tr2) (l1 ++ l2).
Proof.
  intros tr1 l1 tr2 l2 H1 H2. induction H1; cbn; [exact H2|constructor; auto|].
  rewrite <- app_assoc. constructor; auto.
Qed.
Lemma plain_app : forall l1 l2, plain l1 -> plain l2 -> plain (l1 ++ l2).
Proof. intros. apply Forall_app. auto. Qed.

(** what justifies an answer of [fact] *)
Definition ob (o : oblig) : Prop :=
  forall m (s : cst), at_toks (pos s) (o_at o) -> same (user s) (o_st o) ->
  match o_verdict o with
  | FNone => True
  | FTake i w' =>
      match runc m (o_exp o) s with
      | ROk s' => at_toks (pos s') w' /\ c_precs (user s') = t_prs (o_st o) /\
          (exists l, thunks s' = rev l ++ thunks s /\ HT i l) /\ plain (vis m (o_exp o) s)
      | RFail _ => False
      | _ => True
      end
  | FPass =>
      match runc m (o_exp o) s with
      | ROk s' => pos s' = pos s /\ thunks s' = thunks s /\ same (user s') (o_st o) /\ plain (vis m (o_exp o) s)
      | RFail _ => False
      | _ => True
      end
  | FFail =>
      match runc m (o_exp o) s with
      | ROk _ => False
      | RFail s' => c_precs (user s') = t_prs (o_st o)
      | _ => True
      end
  end.

Lemma at_where : forall p w, at_toks p w -> p = where_ w.
Proof. intros p w [H1 H2]. unfold where_. rewrite <- H1, skipn_length. lia. Qed.

Lemma at_get : forall p w, at_toks p w -> get_of inp p = first_of w.
Proof.
  intros p w [H1 H2]. unfold get_of.
  assert (E : nth_error inp p = nth_error (skipn p inp) 0).
  { clear. revert p. induction inp as [|c l IH]; intros [|p]; try reflexivity. apply IH. }
  rewrite E, H1. destruct w as [|[c|i c] w]; reflexivity.
Qed.

Lemma at_next : forall p c w, at_toks p (Kn c :: w) -> at_toks (S p) w.
Proof.
  intros p c w [H1 H2]. cbn in H1.
  assert (E : skipn (S p) inp = tl (skipn p inp)).
  { clear. revert p. induction inp as [|c l IH]; intros [|p]; try reflexivity. apply IH. }
  split; [rewrite E, H1; reflexivity|].
  assert (List.length (skipn p inp) = S (List.length (text w))) by (rewrite H1; reflexivity).
  rewrite skipn_length in H. lia.
Qed.

Definition obs_of (x : tres) : list oblig :=
  match x with TOk _ _ _ _ o => o | TFail _ o => o | TStuck => [] end.

Definition good (m : nat) (e : cexp) (s : cst) (x : tres) : Prop :=
  Forall ob (obs_of x) ->
  match x with
  | TOk w' t' tr pl _ =>
      match runc m e s with
      | ROk s' => at_toks (pos s') w' /\ same (user s') t' /\
          (exists l, thunks s' = rev l ++ thunks s /\ traced tr l) /\ (pl = true -> plain (vis m e s))
      | RFail _ => False
      | _ => True
      end
  | TFail t' _ => match runc m e s with ROk _ => False | RFail s' => same (user s') t' | _ => True end
  | TStuck => True
  end.

Lemma same_forget : forall u t, same u t -> same u (mkt None (t_prs t)).
Proof. intros u t [H1 H2]. split; [exact H1|exact I]. Qed.

Lemma tstr_good : forall str w t p, at_toks p w ->
  match tstr str w t with
  | TOk w' t' tr pl o => t' = t /\ tr = [] /\ o = [] /\
      forall p0, exists p', match_str (get_of inp) str p0 p = inl p' /\ at_toks p' w'
  | TFail t' o => t' = t /\ o = [] /\ forall p0, exists p', match_str (get_of inp) str p0 p = inr p'
  | TStuck => True
  end.
Proof.
  induction str as [|c str IH]; intros w t p HA; cbn [tstr match_str].
  - repeat split. intros _. exists p. auto.
  - rewrite (at_get _ _ HA). destruct w as [|[c'|i c'] w]; cbn [first_of].
    + split; [reflexivity|]. split; [reflexivity|]. eauto.
    + destruct (beq c c').
      * apply at_next in HA. exact (IH w t (S p) HA).
      * split; [reflexivity|]. split; [reflexivity|]. eauto.
    + destruct (beq c c'); [exact I|]. split; [reflexivity|]. split; [reflexivity|]. eauto.
Qed.

Lemma tpred_good : forall q w t (s : cst), at_toks (pos s) w -> same (user s) t ->
  match tpred q w t with
  | TOk w' t' tr pl o => w' = w /\ o = [] /\
      match run_pred (get_of inp) (cprun col off) q s with
      | ROk s' => pos s' = pos s /\ same (user s') t' /\ (exists l, thunks s' = rev l ++ thunks s /\ traced tr l)
      | RFail _ => False
      | _ => True
      end
  | TFail t' o => o = [] /\ match run_pred (get_of inp) (cprun col off) q s with
      | ROk _ => False | RFail s' => same (user s') t' | _ => True end
  | TStuck => True
  end.
Proof.
  intros q w t s HA [S1 S2]. unfold run_pred. destruct q; cbn [tpred cprun].
  - split; [reflexivity|]. split; [reflexivity|]. cbn. split; [reflexivity|]. split; [split; auto|].
    exists [(a, where_ w)]. split; [rewrite <- (at_where _ _ HA); reflexivity|]. constructor. constructor.
  - split; [reflexivity|]. split; [reflexivity|]. cbn. split; [reflexivity|]. split; [split; [exact S1|reflexivity]|].
    exists []. split; [reflexivity|constructor].
  - destruct (t_op t) as [o|] eqn:EO; [|exact I]. rewrite S2, S1.
    destruct (Nat.leb (hd 0 (t_prs t)) (oprec o)); cbn.
    + split; [reflexivity|]. split; [reflexivity|]. split; [reflexivity|]. split; [split; [auto|rewrite EO; auto]|].
      exists []. split; [reflexivity|constructor].
    + split; [reflexivity|]. split; [auto|rewrite EO; auto].
  - destruct (t_op t) as [o|] eqn:EO; [|exact I]. rewrite S2. cbn.
    split; [reflexivity|]. split; [reflexivity|]. split; [reflexivity|].
    split; [split; cbn; [rewrite S1; reflexivity|rewrite ?EO; auto]|].
    exists []. split; [reflexivity|constructor].
  - cbn. split; [reflexivity|]. split; [reflexivity|]. split; [reflexivity|].
    split; [split; cbn; [rewrite S1; reflexivity|exact S2]|]. exists []. split; [reflexivity|constructor].
  - cbn. split; [reflexivity|]. split; [reflexivity|]. split; [reflexivity|].
    split; [split; cbn; [rewrite S1; reflexivity|exact S2]|]. exists []. split; [reflexivity|constructor].
  - cbn. split; [reflexivity|]. split; [reflexivity|]. split; [reflexivity|].
    split; [split; auto|]. exists []. split; [reflexivity|constructor].
  - cbn. split; [reflexivity|]. split; [reflexivity|]. split; [reflexivity|].
    split; [split; auto|]. exists []. split; [reflexivity|constructor].
  - destruct b; cbn; [|split; [reflexivity|split; auto]]. split; [reflexivity|]. split; [reflexivity|]. split; [reflexivity|].
    split; [split; auto|]. exists []. split; [reflexivity|constructor].
  - split; [reflexivity|]. split; [reflexivity|]. unfold do_err.
    destruct (input_position _ _ _); [|exact I]. destruct (et_note _ _ _ _); [|exact I]. cbn.
    split; [reflexivity|]. split; [split; auto|]. exists []. split; [reflexivity|constructor].
Qed.

Lemma tpred_err : forall q w t (s : cst), same (user s) t ->
  match tpred q w t with
  | TOk _ t' _ _ _ =>
      match run_pred (get_of inp) (cprun col off) q s with
      | ROk s' => same (user s') t'
      | RFail _ => False
      | _ => True
      end
  | _ => True
  end.
Proof.
  intros q w t s [S1 S2]. unfold run_pred. destruct q; cbn [tpred cprun]; try (split; auto; fail).
  - split; [exact S1|reflexivity].
  - destruct (t_op t) as [o|] eqn:EO; [|exact I]. rewrite S2, S1.
    destruct (Nat.leb (hd 0 (t_prs t)) (oprec o)); cbn; [|exact I]. split; [exact S1|rewrite EO; exact S2].
  - destruct (t_op t) as [o|] eqn:EO; [|exact I]. rewrite S2. split; cbn; [rewrite S1; reflexivity|exact S2].
  - split; cbn; [rewrite S1; reflexivity|exact S2].
  - split; cbn; [rewrite S1; reflexivity|exact S2].
  - destruct b; cbn; [split; auto|exact I].
  - unfold do_err. destruct (input_position _ _ _); [|exact I]. destruct (et_note _ _ _ _); [|exact I]. split; auto.
Qed.

Lemma eat_good : forall w t (s : cst), at_toks (pos s) w -> same (user s) t ->
  match eat w t with
  | TOk w' t' tr pl o => at_toks (pos (advance s)) w' /\ same (user (advance s)) t' /\
      (exists l, thunks (advance s) = rev l ++ thunks s /\ traced tr l)
  | TFail _ _ => False
  | TStuck => True
  end.
Proof.
  intros [|[c|i c] w] t s HA HS; cbn; auto. split; [eapply at_next; eauto|]. split; [exact HS|].
  exists []. split; [reflexivity|constructor].
Qed.

Lemma more : forall tr1 l1 tr2 l2 (a b c : list (action * nat)), b = rev l1 ++ a -> traced tr1 l1 -> c = rev l2 ++ b -> traced tr2 l2 ->
  exists l, c = rev l ++ a /\ traced (tr1 ++ tr2) l.
Proof.
  intros tr1 l1 tr2 l2 a b c -> H1 -> H2. exists (l1 ++ l2).
  split; [rewrite rev_app_distr, app_assoc; reflexivity|apply traced_app; auto].
Qed.

Lemma nothing : forall (s s1 : cst), exists l, thunks (restore s s1) = rev l ++ thunks s /\ traced [] l.
Proof. intros. exists []. split; [reflexivity|constructor]. Qed.

Lemma plain_nil : plain [].
Proof. constructor. Qed.

(** sequencing, shared by PSeq, PStar and PPlus *)
Lemma good_after : forall m e1 e2 s w1 t1 tr1 pl1 o1 x,
  good m e1 s (TOk w1 t1 tr1 pl1 o1) ->
  (forall s1, at_toks (pos s1) w1 -> same (user s1) t1 -> good m e2 s1 x) ->
  Forall ob (obs_of (after tr1 pl1 o1 x)) ->
  match after tr1 pl1 o1 x with
  | TOk w' t' tr pl _ =>
      match (match runc m e1 s with ROk s1 => runc m e2 s1 | r => r end) with
      | ROk s' => at_toks (pos s') w' /\ same (user s') t' /\
          (exists l, thunks s' = rev l ++ thunks s /\ traced tr l) /\
          (pl = true -> plain (match runc m e1 s with ROk s1 => vis m e1 s ++ vis m e2 s1 | _ => [] end))
      | RFail _ => False
      | _ => True
      end
  | TFail t' _ => match (match runc m e1 s with ROk s1 => runc m e2 s1 | r => r end) with
      | ROk _ => False | RFail s' => same (user s') t' | _ => True end
  | TStuck => True
  end.
Proof.
  intros m e1 e2 s w1 t1 tr1 pl1 o1 x H1 H2 HO. unfold good in *.
  assert (Q1 : x <> TStuck -> Forall ob o1 /\ Forall ob (obs_of x)).
  { intros X1. destruct x; cbn in HO |- *; try (apply Forall_app in HO; exact HO). contradiction. }
  destruct x as [w2 t2 tr2 pl2 o2|t2 o2|]; cbn [after]; [| |exact I];
    destruct Q1 as [Q1 Q2]; try discriminate; specialize (H1 Q1);
    destruct (runc m e1 s) as [s1|s1| |]; try contradiction; auto;
    destruct H1 as (A1 & B1 & (l1 & L1 & T1) & D1); specialize (H2 s1 A1 B1 Q2).
  - destruct (runc m e2 s1) as [s2|s2| |]; try contradiction; auto.
    destruct H2 as (A2 & B2 & (l2 & L2 & T2) & D2). split; [exact A2|]. split; [exact B2|].
    split; [eapply more; eauto|]. intros PL. apply andb_prop in PL as [P1 P2]. apply plain_app; auto.
  - exact H2.
Qed.

Variable fact : cexp -> list tok -> verdict.

Theorem trun_sound : forall m n e w t s, at_toks (pos s) w -> same (user s) t -> good m e s (trun fact n e w t).
Proof.
  induction m as [|m IH]; intros n e w t s HA HS.
  { unfold good. destruct (trun fact n e w t); cbn; try contradiction; auto. }
  destruct n as [|n]; [intros _; exact I|]. cbn [trun].
  destruct (fact e w) as [|i w'| |] eqn:EF.
  2:{ intros HO. cbn [obs_of] in HO. inversion HO as [|? ? K1 _]; subst. specialize (K1 (S m) s HA HS). cbn [o_verdict o_exp o_st] in K1.
      destruct (runc (S m) e s) as [s'|s'| |]; try contradiction; auto. destruct K1 as (A & Bq & (l & L1 & L2) & D).
      split; [exact A|]. split; [split; [exact Bq|exact I]|]. split; [|auto]. exists (l ++ []).
      split; [rewrite app_nil_r; exact L1|]. constructor; [exact L2|constructor]. }
  2:{ intros HO. cbn [obs_of] in HO. inversion HO as [|? ? K1 _]; subst. specialize (K1 (S m) s HA HS). cbn [o_verdict o_exp o_st] in K1.
      destruct (runc (S m) e s) as [s'|s'| |]; try contradiction; auto. destruct K1 as (A & Bq & Cq & D).
      split; [rewrite A; exact HA|]. split; [exact Cq|]. split; [|auto]. exists []. split; [rewrite Bq; reflexivity|constructor]. }
  2:{ intros HO. cbn [obs_of] in HO. inversion HO as [|? ? K1 _]; subst. specialize (K1 (S m) s HA HS). cbn [o_verdict o_exp o_st] in K1.
      destruct (runc (S m) e s) as [s'|s'| |]; try contradiction; auto. split; [exact K1|exact I]. }
  clear EF. destruct e.
  - intros HO. cbn [Peg.run visits]. rewrite (at_get _ _ HA). destruct (first_of w) as [c|].
    + pose proof (eat_good w t s HA HS) as K1. destruct (eat w t); try contradiction; [|exact I].
      destruct K1 as (A & Bq & C). split; [exact A|]. split; [exact Bq|]. split; [exact C|intros _; constructor].
    + exact HS.
  - intros HO. cbn [Peg.run visits]. rewrite (at_get _ _ HA). destruct (first_of w) as [c'|]; [destruct (beq c c')|].
    + pose proof (eat_good w t s HA HS) as K1. destruct (eat w t); try contradiction; [|exact I].
      destruct K1 as (A & Bq & C). split; [exact A|]. split; [exact Bq|]. split; [exact C|intros _; constructor].
    + exact HS.
    + exact HS.
  - intros HO. cbn [Peg.run visits]. pose proof (tstr_good s0 w t (pos s) HA) as K1. destruct (tstr s0 w t).
    + destruct K1 as (-> & -> & -> & K1). destruct (K1 (pos s)) as (p' & -> & K2). cbn.
      split; [exact K2|]. split; [exact HS|]. split; [|intros _; constructor]. exists []. split; [reflexivity|constructor].
    + destruct K1 as (-> & _ & K1). destruct (K1 (pos s)) as (p' & ->). exact HS.
    + exact I.
  - intros HO. cbn [Peg.run visits]. rewrite (at_get _ _ HA). destruct (first_of w) as [c'|]; [destruct (in_class cs c')|].
    + pose proof (eat_good w t s HA HS) as K1. destruct (eat w t); try contradiction; [|exact I].
      destruct K1 as (A & Bq & C). split; [exact A|]. split; [exact Bq|]. split; [exact C|intros _; constructor].
    + exact HS.
    + exact HS.
  - pose proof (IH n (CG r) w t s HA HS) as I1. unfold good in *. cbn [Peg.run visits].
    destruct (trun fact n (CG r) w t) as [w' t' tr pl o|t' o|]; cbn [obs_of] in *; intros HO; try specialize (I1 HO); auto.
    + destruct (runc m (CG r) s) as [s'|s'| |]; try contradiction; auto. destruct I1 as (A & Bq & C & D).
      split; [exact A|]. split; [exact Bq|]. split; [exact C|]. intros PL. apply andb_prop in PL as [P1 P2].
      constructor; [cbn; destruct (callish r); [discriminate|reflexivity]|exact (D P2)].
    + destruct (runc m (CG r) s) as [s'|s'| |]; try contradiction; auto.
  - pose proof (IH n e1 w t s HA HS) as I1.
    destruct (trun fact n e1 w t) as [w1 t1 tr1 pl1 o1|t1 o1|] eqn:E1.
    + pose proof (good_after m e1 e2 s w1 t1 tr1 pl1 o1 (trun fact n e2 w1 t1) I1
        (fun s1 A1 B1 => IH n e2 w1 t1 s1 A1 B1)) as K1. unfold good. cbn [Peg.run visits]. exact K1.
    + unfold good in *. cbn [Peg.run visits]. intros HO. specialize (I1 HO).
      destruct (runc m e1 s) as [s1|s1| |]; try contradiction; auto.
    + intros _. exact I.
  - pose proof (IH n e1 w t s HA HS) as I1. unfold good in *. cbn [Peg.run visits].
    destruct (trun fact n e1 w t) as [w1 t1 tr1 pl1 o1|t1 o1|] eqn:E1; cbn [obs_of] in I1.
    + intros HO. specialize (I1 HO). destruct (runc m e1 s) as [s1|s1| |]; try contradiction; auto.
    + intros HO. assert (Q1 : trun fact n e2 w t1 <> TStuck -> Forall ob o1 /\ Forall ob (obs_of (trun fact n e2 w t1))).
      { intros X1. destruct (trun fact n e2 w t1); cbn in HO |- *; try (apply Forall_app in HO; exact HO). contradiction. }
      pose proof (fun s1 (B1 : same (user s1) t1) => IH n e2 w t1 (restore s s1) HA B1) as I2.
      destruct (trun fact n e2 w t1) as [w2 t2 tr2 pl2 o2|t2 o2|] eqn:E2; cbn [owing]; [| |exact I];
        (destruct Q1 as [Q1 Q2]; [discriminate|]); specialize (I1 Q1);
        destruct (runc m e1 s) as [s1|s1| |]; try contradiction; auto; exact (I2 s1 I1 Q2).
    + intros _. exact I.
  - pose proof (IH n e w t s HA HS) as I1.
    destruct (trun fact n e w t) as [w1 t1 tr1 pl1 o1|t1 o1|] eqn:E1.
    + pose proof (good_after m e (PStar e) s w1 t1 tr1 pl1 o1 (trun fact n (PStar e) w1 t1) I1
        (fun s1 A1 B1 => IH n (PStar e) w1 t1 s1 A1 B1)) as K1. intros HO. specialize (K1 HO).
      assert (K2 : forall s1, runc m e s = RFail s1 -> after tr1 pl1 o1 (trun fact n (PStar e) w1 t1) = TStuck).
      { intros s1 E2. destruct (trun fact n (PStar e) w1 t1); cbn [after] in *; auto; exfalso;
          apply Forall_app in HO as [HO1 _]; specialize (I1 HO1); cbv beta iota in I1; rewrite E2 in I1; exact I1. }
      cbn [Peg.run visits]. destruct (runc m e s) as [s1|s1| |]; try exact K1.
      rewrite (K2 s1 eq_refl). exact I.
    + unfold good in *. cbn [Peg.run visits]. intros HO. specialize (I1 HO).
      destruct (runc m e s) as [s1|s1| |]; try contradiction; auto.
      split; [exact HA|]. split; [exact I1|]. split; [apply nothing|intros _; constructor].
    + intros _. exact I.
  - pose proof (IH n e w t s HA HS) as I1.
    destruct (trun fact n e w t) as [w1 t1 tr1 pl1 o1|t1 o1|] eqn:E1.
    + pose proof (good_after m e (PStar e) s w1 t1 tr1 pl1 o1 (trun fact n (PStar e) w1 t1) I1
        (fun s1 A1 B1 => IH n (PStar e) w1 t1 s1 A1 B1)) as K1. unfold good. cbn [Peg.run visits]. exact K1.
    + unfold good in *. cbn [Peg.run visits]. intros HO. specialize (I1 HO).
      destruct (runc m e s) as [s1|s1| |]; try contradiction; auto.
    + intros _. exact I.
  - pose proof (IH n e w t s HA HS) as I1. unfold good in *. cbn [Peg.run visits].
    destruct (trun fact n e w t) as [w1 t1 tr1 pl1 o1|t1 o1|]; cbn [obs_of] in *; intros HO; try specialize (I1 HO); auto.
    + destruct (runc m e s) as [s1|s1| |] eqn:E1; try contradiction; auto.
    + destruct (runc m e s) as [s1|s1| |] eqn:E1; try contradiction; auto.
      split; [exact HA|]. split; [exact I1|]. split; [apply nothing|intros _; constructor].
  - pose proof (IH n e w t s HA HS) as I1. unfold good in *. cbn [Peg.run visits].
    destruct (trun fact n e w t) as [w1 t1 tr1 pl1 o1|t1 o1|]; cbn [obs_of] in *; intros HO; try specialize (I1 HO); auto.
    + destruct (runc m e s) as [s1|s1| |] eqn:E1; try contradiction; auto.
      destruct I1 as (A1 & B1 & _). split; [exact HA|]. split; [exact B1|]. split; [apply nothing|intros _; constructor].
    + destruct (runc m e s) as [s1|s1| |] eqn:E1; try contradiction; auto.
  - pose proof (IH n e w t s HA HS) as I1. unfold good in *. cbn [Peg.run visits].
    destruct (trun fact n e w t) as [w1 t1 tr1 pl1 o1|t1 o1|]; cbn [obs_of] in *; intros HO; try specialize (I1 HO); auto.
    + destruct (runc m e s) as [s1|s1| |] eqn:E1; try contradiction; auto. apply I1.
    + destruct (runc m e s) as [s1|s1| |] eqn:E1; try contradiction; auto.
      split; [exact HA|]. split; [exact I1|]. split; [apply nothing|intros _; constructor].
  - intros HO. cbn [Peg.run visits]. split; [exact HA|]. split; [exact HS|]. split; [|intros _; constructor].
    exists [(a, where_ w)]. split; [rewrite <- (at_where _ _ HA); reflexivity|]. constructor. constructor.
  - intros HO. cbn [Peg.run visits]. pose proof (tpred_good q w t s HA HS) as K1. destruct (tpred q w t) as [w' t' tr pl o|t' o|]; auto.
    + destruct K1 as (-> & -> & K1). destruct (run_pred _ _ _ _) as [s'|s'| |]; try contradiction; auto.
      destruct K1 as (A & Bq & C). split; [rewrite A; exact HA|]. split; [exact Bq|]. split; [exact C|intros _; constructor].
    + apply K1.
  - pose proof (IH n e w t s HA HS) as I1. unfold good in *. cbn [Peg.run visits].
    destruct (trun fact n e w t) as [w1 t1 tr1 pl1 o1|t1 o1|]; cbn [obs_of] in *.
    + intros HO. specialize (I1 HO). destruct (runc m e s) as [s1|s1| |] eqn:E1; try contradiction; auto.
    + destruct (tpred q w t1) as [w2 t2 tr2 pl2 o2|t2 o2|] eqn:EP; cbn [obs_of]; intros HO; auto.
      specialize (I1 HO). destruct (runc m e s) as [s1|s1| |] eqn:E1; try contradiction; auto.
      pose proof (tpred_err q w t1 s1 I1) as K1. rewrite EP in K1.
      destruct (run_pred _ _ _ _) as [s'|s'| |]; try contradiction; auto.
    + intros _. exact I.
Qed.
End Sound.
