(** * The sequence of rounds of a parse (parser.c:617-684) *)
From Coq Require Import List Bool Arith ZArith Lia Sorted.
From Verif Require Import Peg PegProofs PegThunks LineSafe QuickModel QuickSpec QuickProofs QuickProps
  CypherSyntax CypherGrammar OperModel ErrModel CypherMatch CypherInv
  AstTypes AstModel CypherBuild CypherExec CypherParse CypherRound CypherSpec ExecRange.
Import ListNotations.

(** the segment made of a round, and what is carried to the next one *)
Opaque parse_one.

Definition round_segment (o : nat) (y : carry) (a : astate) (en : position) : segment :=
  make_segment o (mkrange (y_off y) en) (a_errs a)
    (match a_blocks a with b :: _ => b_kids b | [] => [] end) (a_result a) (a_eof a).

Lemma make_segment_fields : forall o r es ts d eof, let s := make_segment o r es ts d eof in
  s_range s = r /\ s_errors s = es /\ s_roots s = fst (set_ordinals_all ts o) /\
  s_nnodes s = snd (set_ordinals_all ts o) - o /\ s_directive s = option_map nid d /\ s_eof s = eof.
Proof. intros. unfold s, make_segment. destruct (set_ordinals_all ts o). cbn. auto 10. Qed.

Lemma round_seg_end : forall o y a en, seg_end (round_segment o y a en) = en.
Proof.
  intros. unfold seg_end, round_segment.
  rewrite (proj1 (make_segment_fields _ _ _ _ _ _)). reflexivity.
Qed.

Lemma round_seg_start : forall o y a en, seg_start (round_segment o y a en) = y_off y.
Proof.
  intros. unfold seg_start, round_segment.
  rewrite (proj1 (make_segment_fields _ _ _ _ _ _)). reflexivity.
Qed.

Definition next_carry (a : astate) (u : cuser) (en : position) : carry :=
  mkcy en (c_op u) (et_clear_errors (et_clear_potentials (c_et u))) (a_ret a) (a_sb a)
       (a_consumed a) (a_fresh a).

(** one round that produced a segment *)
Record produced (cf : config) (la : lookahead) (r : rule) (inp : bytes) (o : nat) (y : carry)
    (p : nat) (a : astate) (u : cuser) (en : position) (seg : segment) : Prop := {
  pd_round : exists lines, parse_one cf la r inp y = RdOk p lines a u /\
               input_position (y_off y) lines p = Some en;
  pd_consumed : a_consumed a = p;
  pd_pos : 0 < p;
  pd_bound : p <= List.length inp;
  pd_seg : seg = round_segment o y a en }.

(** Segments produced by successive rounds; the flag: the input was used up. *)
Inductive chain (cf : config) (la : lookahead) (r : rule) :
    bytes -> nat -> carry -> list segment -> bool -> Prop :=
| ch_stop : forall inp o y, chain cf la r inp o y [] false
| ch_end : forall o y, chain cf la r [] o y [] true
| ch_last : forall inp o y p a u en seg,
    produced cf la r inp o y p a u en seg -> a_eof a = true ->
    chain cf la r inp o y [seg] true
| ch_more : forall inp o y p a u en seg segs c,
    produced cf la r inp o y p a u en seg -> a_eof a = false ->
    chain cf la r (skipn p inp) (o + s_nnodes seg) (next_carry a u en) segs c ->
    chain cf la r inp o y (seg :: segs) c.

Definition quiet (y : carry) : Prop := et_errs (y_et y) = [] /\ et_labels (y_et y) = [].

Lemma quiet_next : forall a u en, quiet (next_carry a u en).
Proof. intros. split; reflexivity. Qed.

Lemma quiet_0 : forall cf, quiet (carry0 cf).
Proof. intros. split; reflexivity. Qed.

(** how a call ended, given the segments delivered and whether the input was used up *)
Definition ended (cb : callback) (single : bool) (ret : Z) (done new : list segment) (c : bool) : Prop :=
  (forall l1 s1 s2 l2, new = l1 ++ s1 :: s2 :: l2 -> cb (done ++ l1 ++ [s1]) = 0%Z) /\
  (single = true -> List.length new <= 1) /\
  match new with
  | [] => ret = 0%Z /\ c = true
  | _ => ret = Z.min 0 (cb (done ++ new)) /\ (c = false -> single = true \/ cb (done ++ new) <> 0%Z)
  end.

Lemma ploop_chain : forall k cf la cb fl inp o y done last ret segs last',
  quiet y ->
  ploop k cf la cb fl inp o y done last = PRet ret segs last' ->
  exists new c, segs = done ++ new /\
    chain cf la (start_rule fl) inp o y new c /\
    last' = match last_end new with None => last | x => x end /\
    ended cb (pf_single fl) ret done new c.
Proof.
  induction k as [|k IH]; intros cf la cb fl inp o y done last ret segs last' Hq H; [discriminate|].
  cbn [ploop] in H.
  destruct (parse_one cf la (start_rule fl) inp y) as [p lines a u| | | | |] eqn:Hr; try discriminate.
  pose proof (round_ok _ _ _ _ _ _ _ _ _ (start_entry fl) Hr) as [F1 F2 F3 F4 F5].
  destruct (Nat.eqb_spec (a_consumed a) 0) as [E0|E0].
  - assert (inp = []) as -> by (destruct inp; [reflexivity|]; assert (0 < p) by (apply F2; discriminate); lia).
    destruct (_ && _ && _) in H; [|discriminate]. injection H as <- <- <-.
    exists [], true. rewrite app_nil_r. split; [reflexivity|]. split; [constructor|]. split; [reflexivity|].
    split; [intros [|? [|]] ? ? ? Hx; discriminate|]. split; [cbn; lia|auto].
  - destruct (input_position (y_off y) lines (a_consumed a)) as [en|] eqn:Ep; [|discriminate].
    fold (round_segment o y a en) in H. set (seg := round_segment o y a en) in *.
    assert (Hp : produced cf la (start_rule fl) inp o y p a u en seg).
    { rewrite F3 in Ep. split; [exists lines; auto|auto|lia|auto|reflexivity]. }
    assert (Hfin : (cb (done ++ [seg]) <> 0%Z \/ a_eof a || pf_single fl = true) ->
       segs = done ++ [seg] -> last' = Some en -> ret = Z.min 0 (cb (done ++ [seg])) ->
       exists new c, segs = done ++ new /\ chain cf la (start_rule fl) inp o y new c /\
        last' = match last_end new with None => last | x => x end /\
        ended cb (pf_single fl) ret done new c).
    { intros Hc -> -> ->. exists [seg], (a_eof a). split; [reflexivity|]. split.
      - destruct (a_eof a) eqn:Ea; [eapply ch_last; eauto|eapply ch_more; eauto; constructor].
      - split; [unfold last_end; cbn [rev app]; unfold seg; rewrite round_seg_end; reflexivity|].
        split; [intros [|? [|]] ? ? ? Hx; discriminate|]. split; [cbn; lia|]. split; [reflexivity|].
        intros Ea. rewrite Ea in Hc. cbn in Hc. tauto. }
    destruct (Z.ltb_spec 0 (cb (done ++ [seg]))) as [Hpos|Hpos].
    { injection H as <- <- <-. apply Hfin; auto; lia. }
    destruct (Z.ltb_spec (cb (done ++ [seg])) 0) as [Hneg|Hneg].
    { injection H as <- <- <-. apply Hfin; auto; lia. }
    assert (Hz : cb (done ++ [seg]) = 0%Z) by lia.
    destruct (a_eof a || pf_single fl) eqn:Eo.
    { injection H as <- <- <-. apply Hfin; auto; lia. }
    clear Hfin. apply orb_false_iff in Eo. destruct Eo as [Eo Es].
    fold (next_carry a u en) in H.
    destruct (IH _ _ _ _ _ _ _ _ _ _ _ _ (quiet_next a u en) H) as [new [c [-> [Hc [-> [E1 [_ E3]]]]]]].
    exists (seg :: new), c. rewrite <- app_assoc. split; [reflexivity|].
    split; [eapply ch_more; eauto|]. split.
    { unfold last_end. cbn [rev]. destruct (rev new); cbn [app]; [unfold seg; rewrite round_seg_end|]; reflexivity. }
    rewrite Es. split; [|split; [discriminate|]].
    + intros [|x l1] s1 s2 l2 Hx; injection Hx as -> Hx; [exact Hz|].
      rewrite <- (E1 _ _ _ _ Hx). rewrite <- app_assoc. reflexivity.
    + destruct new as [|n1 new].
      * destruct E3 as [-> ->]. rewrite Hz. split; [reflexivity|discriminate].
      * rewrite <- app_assoc in E3. rewrite Es in E3. exact E3.
Qed.

(** the rounds never run out *)
Lemma ploop_total : forall k cf la cb fl inp o y done last,
  List.length inp < k -> quiet y ->
  ploop k cf la cb fl inp o y done last <> PFuel /\
  ploop k cf la cb fl inp o y done last <> PFailed.
Proof.
  induction k as [|k IH]; intros cf la cb fl inp o y done last Hk Hq; [lia|].
  cbn [ploop].
  destruct (round_total cf la _ inp y (start_entry fl)) as [T1 T2].
  destruct (parse_one cf la (start_rule fl) inp y) as [p lines a u| | | | |] eqn:Hr; try (split; congruence).
  pose proof (round_ok _ _ _ _ _ _ _ _ _ (start_entry fl) Hr) as [F1 F2 F3 F4 F5].
  destruct (Nat.eqb_spec (a_consumed a) 0) as [E0|E0].
  { destruct (_ && _ && _); split; discriminate. }
  destruct (input_position _ _ _) as [en|]; [|split; discriminate].
  destruct (Z.ltb 0 _); [split; discriminate|].
  destruct (Z.ltb _ 0); [split; discriminate|].
  destruct (_ || _); [split; discriminate|].
  apply IH; [|apply quiet_next]. rewrite skipn_length. lia.
Qed.

(** ** the same segments whatever the callback answers *)
Definition never : callback := fun _ => 0%Z.

Lemma skipn_exact : forall (A : Type) (l1 l2 : list A), skipn (List.length l1) (l1 ++ l2) = l2.
Proof. intros A l1 l2. rewrite skipn_app, skipn_all, Nat.sub_diag. reflexivity. Qed.

Lemma deliver_ext : forall cb single rest seen, exists l, snd (deliver cb single seen rest) = seen ++ l.
Proof.
  intros cb single. induction rest as [|s rest IH]; intros seen; cbn [deliver].
  - exists []. rewrite app_nil_r. reflexivity.
  - destruct (Z.ltb 0 _); [eexists; reflexivity|]. destruct (Z.ltb _ 0); [eexists; reflexivity|].
    destruct single; [eexists; reflexivity|].
    destruct (IH (seen ++ [s])) as [l ->]. rewrite <- app_assoc. eexists. reflexivity.
Qed.

Lemma ploop_deliver : forall k cf la cb fl fl' inp o y done last ret all last',
  start_rule fl' = start_rule fl -> pf_single fl' = false ->
  quiet y ->
  ploop k cf la never fl' inp o y done last = PRet ret (done ++ all) last' ->
  ploop k cf la cb fl inp o y done last =
    let r := deliver cb (pf_single fl) done all in
    PRet (fst r) (snd r) match last_end (skipn (List.length done) (snd r)) with None => last | x => x end.
Proof.
  induction k as [|k IH]; intros cf la cb fl fl' inp o y done last ret all last' Hfl Hs Hq H; [discriminate|].
  cbn [ploop] in H |- *. rewrite Hfl in H.
  destruct (parse_one cf la (start_rule fl) inp y) as [p lines a u| | | | |] eqn:Hr; try discriminate.
  pose proof (round_ok _ _ _ _ _ _ _ _ _ (start_entry fl) Hr) as [F1 F2 F3 F4 F5].
  destruct (Nat.eqb_spec (a_consumed a) 0) as [E0|E0].
  - destruct (_ && _ && _) in H |- *; [|discriminate]. injection H as <- Hd <-.
    rewrite <- (app_nil_r done) in Hd at 1. apply app_inv_head in Hd. subst all. cbn.
    rewrite skipn_all. reflexivity.
  - destruct (input_position (y_off y) lines (a_consumed a)) as [en|] eqn:Ep; [|discriminate].
    fold (round_segment o y a en) in H |- *. set (seg := round_segment o y a en) in *.
    unfold never at 1 2 in H. cbn [Z.ltb Z.compare] in H. rewrite Hs, orb_false_r in H.
    assert (Ha : exists all', all = seg :: all').
    { destruct (a_eof a).
      - injection H as _ Hd _. apply app_inv_head in Hd. subst. eauto.
      - fold (next_carry a u en) in H. apply ploop_chain in H; [|apply quiet_next].
        destruct H as [new [c [Hd _]]]. rewrite <- app_assoc in Hd. apply app_inv_head in Hd. subst. cbn. eauto. }
    destruct Ha as [all' ->]. cbn [deliver].
    assert (Hl : last_end (skipn (List.length done) (done ++ [seg])) = Some en).
    { rewrite skipn_app, skipn_all, Nat.sub_diag. unfold last_end. cbn [skipn rev app].
      unfold seg. rewrite round_seg_end. reflexivity. }
    destruct (Z.ltb 0 (cb (done ++ [seg]))); [cbn [fst snd]; rewrite Hl; reflexivity|].
    destruct (Z.ltb (cb (done ++ [seg])) 0); [cbn [fst snd]; rewrite Hl; reflexivity|].
    destruct (pf_single fl) eqn:Es; [rewrite orb_true_r; cbn [fst snd]; rewrite Hl; reflexivity|].
    rewrite orb_false_r.
    destruct (a_eof a) eqn:Ea.
    + injection H as _ Hd _. apply app_inv_head in Hd. injection Hd as Hd. subst all'.
      cbn [deliver fst snd]. rewrite Hl. reflexivity.
    + assert (Hd : done ++ seg :: all' = (done ++ [seg]) ++ all') by (rewrite <- app_assoc; reflexivity).
      rewrite Hd in H. fold (next_carry a u en) in H |- *.
      rewrite (IH _ _ cb _ _ _ _ _ _ _ _ _ _ Hfl Hs (quiet_next a u en) H). cbn zeta. rewrite Es.
      destruct (deliver_ext cb false all' (done ++ [seg])) as [l ->].
      f_equal. rewrite skipn_exact. rewrite <- app_assoc, skipn_exact. cbn [app].
      unfold last_end. cbn [rev]. destruct (rev l); cbn [app]; [unfold seg; rewrite round_seg_end|]; reflexivity.
Qed.

(** ** parse_each *)
Lemma parse_each_eq : forall cf la cb fl inp, parse_each cf la cb fl inp =
  ploop (S (List.length inp)) cf la cb fl inp (cf_ordinal cf) (carry0 cf) [] None.
Proof. reflexivity. Qed.

Lemma parse_each_chain : forall cf la cb fl inp ret segs last,
  parse_each cf la cb fl inp = PRet ret segs last ->
  exists c, chain cf la (start_rule fl) inp (cf_ordinal cf) (carry0 cf) segs c /\
    last = last_end segs /\ ended cb (pf_single fl) ret [] segs c.
Proof.
  intros cf la cb fl inp ret segs last H. rewrite parse_each_eq in H.
  apply ploop_chain in H; [|apply quiet_0]. destruct H as [new [c [-> [H1 [-> H2]]]]].
  cbn [app]. exists c. split; [exact H1|]. split; [|exact H2]. destruct (last_end new); reflexivity.
Qed.

Lemma parse_each_total : forall cf la cb fl inp,
  parse_each cf la cb fl inp <> PFuel /\ parse_each cf la cb fl inp <> PFailed.
Proof. intros. rewrite parse_each_eq. apply ploop_total; [lia|apply quiet_0]. Qed.

Lemma parse_each_deliver : forall cf la cb only single inp ret all last,
  parse_each cf la never (mkpf false only) inp = PRet ret all last ->
  let (r, seen) := deliver cb single [] all in
  parse_each cf la cb (mkpf single only) inp = PRet r seen (last_end seen).
Proof.
  intros cf la cb only single inp ret all last H. rewrite parse_each_eq in H.
  pose proof (ploop_deliver _ cf la cb (mkpf single only) (mkpf false only) _ _ _ [] _ _ _ _
    eq_refl eq_refl (quiet_0 cf) H) as E.
  cbn [pf_single List.length skipn] in E. cbv zeta in E. destruct (deliver cb single [] all) as [r seen].
  cbn [fst snd] in E. rewrite parse_each_eq, E. destruct (last_end seen); reflexivity.
Qed.

Lemma parse_all_each : forall cf la fl inp r last,
  parse_all cf la fl inp = ARes r last ->
  exists segs, parse_each cf la never fl inp = PRet 0 segs last /\
    r = fold_left merge_segment segs result0.
Proof.
  intros cf la fl inp r last. unfold parse_all. fold never.
  generalize (parse_each cf la never fl inp). intros [ret segs l| | | | |] H; try discriminate.
  destruct ret; try discriminate. injection H as <- <-. eauto.
Qed.
