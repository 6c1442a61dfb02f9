(** * The colorization of error messages changes nothing else *)
From Coq Require Import List Bool Arith Ascii String ZArith Lia.
From Verif Require Import Peg QuickModel ErrModel CypherSyntax CypherGrammar OperModel CypherMatch AstTypes AstModel CypherBuild
  CypherExec CypherParse NodeFacts CypherRound CypherLoop ShiftSpec ShiftProofs ColorSpec.
Import ListNotations.
Opaque parse_one cfuel.
Strategy expand [crun].

Notation alike := same_error.

Lemma report_colored : forall x c ls, error_report x c ls = colored x (chardesc c) (write_labels ls).
Proof. intros. unfold error_report, et_prefix, colored. rewrite <- !app_assoc. reflexivity. Qed.

Section Color.
Variables (x y : coloring).

Record crel (a b : etrack) : Prop := {
  cr_labels : et_labels b = et_labels a;
  cr_char : et_char b = et_char a;
  cr_pos : et_pos b = et_pos a;
  cr_last : et_last b = et_last a;
  cr_errs : Forall2 (alike x y) (et_errs a) (et_errs b) }.

Lemma nonempty_alike : forall (X Y : Type) (P : X -> Y -> Prop) l m, Forall2 P l m -> nonempty m = nonempty l.
Proof. intros X Y P l m []; reflexivity. Qed.

Lemma note_color : forall a b q c l, crel a b ->
  match et_note a q c l, et_note b q c l with Some a', Some b' => crel a' b' | None, None => True | _, _ => False end.
Proof.
  intros a b q c l [H1 H2 H3 H4 H5]. unfold et_note. rewrite H1, H3, H4, (nonempty_alike _ _ _ _ _ H5).
  destruct ((offset q <? offset (et_pos a)) || nonempty (et_errs a) && (offset q <=? et_last a)); [split; auto|].
  destruct (negb (nonempty (et_labels a)) || (offset (et_pos a) <? offset q)); cbn [et_labels et_pos et_char et_errs et_last].
  - cbn. split; cbn; auto.
  - rewrite H1, H2, H3. match goal with |- context [if ?x then None else _] => destruct x end; [exact I|].
    destruct (existsb (bytes_eqb l) (et_labels a)); split; cbn; auto.
Qed.

Lemma reify_color : forall a b, crel a b -> crel (et_reify x a) (et_reify y b).
Proof.
  intros a b [H1 H2 H3 H4 H5]. unfold et_reify. rewrite H1. destruct (et_labels a) as [|l ls] eqn:E; [split; try rewrite E; auto|].
  split; cbn; auto; [congruence|]. apply Forall2_app; [exact H5|]. constructor; [|constructor]. unfold same_error. cbn [pe_pos pe_ctx pe_msg].
  rewrite H2, H3. split; [reflexivity|]. split; [reflexivity|]. exists (chardesc (et_char a)), (write_labels (l :: ls)). rewrite !report_colored. auto.
Qed.

Record vrel (a b : cuser) : Prop := {
  vr_lines : c_lines b = c_lines a;
  vr_precs : c_precs b = c_precs a;
  vr_op : c_op b = c_op a;
  vr_et : crel (c_et a) (c_et b) }.

Lemma vrel_step : forall off q i c u v, vrel u v ->
  match cprun x off q i c u, cprun y off q i c v with
  | Some (b, u', l), Some (b', v', l') => b' = b /\ l' = l /\ vrel u' v'
  | None, None => True
  | _, _ => False
  end.
Proof.
  intros off q i c u v [H1 H2 H3 H4]. destruct q; cbn [cprun]; rewrite ?H1, ?H2, ?H3.
  1,2,5,6,7,9: split; [reflexivity|]; split; [reflexivity|]; split; cbn; (exact H4 || congruence).
  1,2: destruct (c_op u) eqn:E; [|exact I]; split; [reflexivity|]; split; [reflexivity|]; split; cbn; (exact H4 || congruence).
  - split; [reflexivity|]. split; [reflexivity|]. split; try assumption. apply reify_color. exact H4.
  - unfold do_err. rewrite H1. destruct (input_position off (backtrack (c_lines u) i) i) as [z|]; [|exact I].
    pose proof (note_color _ _ z (match c with Some b => b | None => NUL end) label H4) as K.
    destruct (et_note (c_et u) z _ label), (et_note (c_et v) z _ label); try contradiction; [|exact I].
    split; [reflexivity|]. split; [reflexivity|]. split; cbn; auto.
Qed.

(** ** Actions: the errors are only touched to give them contexts *)
Definition arel (a b : astate) : Prop := exists es, b = set_errs a es /\ Forall2 (alike x y) (a_errs a) es.
Definition axrel (r s : xres astate) : Prop :=
  match r, s with
  | XOk a, XOk b => arel a b
  | XAssert, XAssert | XInvalid, XInvalid | XUninit, XUninit => True
  | _, _ => False
  end.

Variable e : xenv.

Lemma fill_color : forall l m, Forall2 (alike x y) l m ->
  match fill_contexts e l, fill_contexts e m with
  | XOk l', XOk m' => Forall2 (alike x y) l' m'
  | XAssert, XAssert | XInvalid, XInvalid | XUninit, XUninit => True
  | _, _ => False
  end.
Proof.
  induction 1 as [|a b l m [H1 [H2 H3]] H IH]; cbn [fill_contexts]; [constructor|]. rewrite H2, H1.
  destruct (pe_ctx a) as [c|] eqn:E.
  - constructor; [|exact H]. split; [exact H1|]. split; [congruence|exact H3].
  - destruct (line_context _ _ 80); [|exact I].
    destruct (fill_contexts e l), (fill_contexts e m); try contradiction; try exact I.
    cbn. constructor; [|exact IH]. split; [reflexivity|]. split; [reflexivity|exact H3].
Qed.

Lemma build_blind : forall c args a es,
  do_build e c args (set_errs a es) = xmap (fun r => (fst r, set_errs (snd r) es)) (do_build e c args a).
Proof.
  intros c args a es. unfold do_build. cbn [set_errs a_prev a_sb a_ops a_fresh a_blocks]. destruct (a_prev a) as [b|]; [|reflexivity].
  destruct (build_call c) as [ty bps]. destruct (eval_bparams _ _ _ _ _ _) as [[ps ops]|]; [|reflexivity].
  destruct (terminal ty && nonempty (b_kids b)); [reflexivity|]. destruct (construct _ _ _ _ _); [|reflexivity].
  destruct (a_blocks a); reflexivity.
Qed.
Lemma arg_blind : forall v a es, eval_arg v (set_errs a es) = eval_arg v a.
Proof. intros [k|] a es; reflexivity. Qed.
Lemma args_blind : forall l a es, eval_args l (set_errs a es) = eval_args l a.
Proof. induction l as [|v l IH]; intros a es; [reflexivity|]. cbn [eval_args]. rewrite arg_blind, IH. reflexivity. Qed.
Lemma rhs_blind : forall r a es,
  eval_rhs e r (set_errs a es) = xmap (fun r => (fst r, set_errs (snd r) es)) (eval_rhs e r a).
Proof.
  intros [v|c l] a es; cbn [eval_rhs].
  - rewrite arg_blind. destruct (eval_arg v a); reflexivity.
  - rewrite args_blind. destruct (eval_args l a) as [vs| | |]; try reflexivity. cbn [xbind]. rewrite build_blind.
    destruct (do_build e c vs a) as [[n b]| | |]; reflexivity.
Qed.
Lemma put_blind : forall k v a es, put_slot k v (set_errs a es) = xmap (fun r => set_errs r es) (put_slot k v a).
Proof. intros k v a es. unfold put_slot. cbn. destruct (a_frames a); [reflexivity|]. destruct (upd _ _ _); reflexivity. Qed.

Lemma rhs_errs : forall r a v b, eval_rhs e r a = XOk (v, b) -> a_errs b = a_errs a.
Proof. intros r a v b H. pose proof (eval_rhs_frame _ _ _ _ H) as [_ [F _]]. apply F. reflexivity. Qed.

Lemma stmt_color : forall s a b, arel a b -> axrel (exec_stmt e s a) (exec_stmt e s b).
Proof.
  induction s as [|v|v| |s| | |o|r|l r|v s IH]; intros a b [es [-> H]]; cbn [exec_stmt]; rewrite ?arg_blind, ?rhs_blind.
  - unfold do_finished. cbn [set_errs a_errs]. assert (Forall2 (alike x y) (rev (a_errs a)) (rev es)) as K.
    { clear - H. induction H; cbn; [constructor|]. apply Forall2_app; auto. }
    apply fill_color in K. destruct (fill_contexts e (rev (a_errs a))) as [l| | |], (fill_contexts e (rev es)) as [m| | |]; try contradiction; try exact I.
    cbn. exists (rev m). split; [reflexivity|]. cbn. clear - K. induction K; cbn; [constructor|]. apply Forall2_app; auto.
  - destruct (eval_arg v a); try exact I. exists es. auto.
  - destruct (eval_arg v a) as [w| | |]; try exact I. cbn [xbind]. unfold do_seq_add. cbn [set_errs a_blocks].
    destruct w; [|exact I]. destruct (a_blocks a); [exact I|]. exists es. auto.
  - exists es. auto.
  - exists es. auto.
  - cbn [set_errs a_prev]. destruct (a_prev a); [|exact I]. exists es. auto.
  - exists es. auto.
  - exists es. auto.
  - destruct (eval_rhs e r a) as [[w b]| | |] eqn:E; try exact I. cbn. exists es. split; [reflexivity|].
    rewrite (rhs_errs _ _ _ _ E). exact H.
  - destruct l as [|k]; destruct (eval_rhs e r a) as [[w b]| | |] eqn:E; try exact I; cbn [xmap xbind fst snd].
    + exists es. split; [reflexivity|]. cbn. rewrite (rhs_errs _ _ _ _ E). exact H.
    + rewrite put_blind. destruct (put_slot k w b) as [a'| | |] eqn:EP; try exact I. cbn. exists es. split; [reflexivity|].
      pose proof (put_slot_frame _ _ _ _ EP) as [_ [F _]]. rewrite F by reflexivity. rewrite (rhs_errs _ _ _ _ E). exact H.
  - destruct (eval_arg v a) as [w| | |]; try exact I. cbn [xbind].
    destruct (match w with Some n => _ | None => _ end); [exists es; auto|]. apply IH. exists es. auto.
Qed.
Lemma stmts_color : forall l a b, arel a b -> axrel (exec_stmts e l a) (exec_stmts e l b).
Proof.
  induction l as [|s l IH]; intros a b H; [exact H|]. cbn [exec_stmts]. pose proof (stmt_color s a b H) as K.
  destruct (exec_stmt e s a), (exec_stmt e s b); try contradiction; try exact I. cbn. auto.
Qed.
Lemma close_blind : forall i a es,
  close_block e i (set_errs a es) = xmap (fun r : block * position * astate => (fst r, set_errs (snd r) es)) (close_block e i a).
Proof.
  intros i a es. unfold close_block. destruct (x_position e i); try reflexivity. cbn [xbind set_errs a_blocks a_prev].
  destruct (a_blocks a); [reflexivity|]. match goal with |- context [if ?x then _ else _] => destruct x end; reflexivity.
Qed.
Lemma close_errs : forall i a r b, close_block e i a = XOk (r, b) -> a_errs b = a_errs a.
Proof.
  intros i a r b H. unfold close_block in H. destruct (x_position e i); try discriminate. cbn [xbind] in H.
  destruct (a_blocks a); [discriminate|]. match type of H with (if ?x then _ else _) = _ => destruct x end; [|discriminate].
  injection H as _ <-. reflexivity.
Qed.
Lemma action_color : forall t i a b, arel a b -> axrel (exec_action e t i a) (exec_action e t i b).
Proof.
  intros t i a b HA. destruct t as [n|n|k| | | | |l]; [| | | | | | |apply stmts_color; exact HA];
    destruct HA as [es [-> H]]; cbn [exec_action].
  - exists es. auto.
  - exists es. auto.
  - cbn [set_errs a_ret]. rewrite (put_blind k (a_ret a) a es). destruct (put_slot k (a_ret a) a) as [a'| | |] eqn:EP; try exact I. exists es. split; [reflexivity|].
    pose proof (put_slot_frame _ _ _ _ EP) as [_ [F _]]. rewrite F by reflexivity. exact H.
  - unfold do_block_start. destruct (x_position e i); try exact I. cbn. destruct (a_prev a); exists es; auto.
  - unfold do_block_end. rewrite close_blind. destruct (close_block e i a) as [[r a']| | |] eqn:EC; try exact I. cbn. exists es. split; [reflexivity|].
    rewrite (close_errs _ _ _ _ EC). exact H.
  - unfold do_block_replace. rewrite close_blind. destruct (close_block e i a) as [[[r z] a']| | |] eqn:EC; try exact I. cbn. exists es. split; [reflexivity|].
    cbn. rewrite (close_errs _ _ _ _ EC). exact H.
  - unfold do_block_merge. rewrite close_blind. destruct (close_block e i a) as [[[r z] a']| | |] eqn:EC; try exact I. cbn.
    apply close_errs in EC. destruct (b_kids r); [|destruct (a_blocks a'); [exact I|]]; exists es; (split; [reflexivity|]); cbn; rewrite EC; exact H.
Qed.
Lemma exec_color : forall ts a b, arel a b -> axrel (exec e ts a) (exec e ts b).
Proof.
  induction ts as [|[t i] ts IH]; intros a b H; [exact H|]. cbn [exec]. pose proof (action_color t i a b H) as K.
  destruct (exec_action e t i a), (exec_action e t i b); try contradiction; try exact I. cbn. auto.
Qed.
End Color.

(** ** Rounds *)
Section Rounds.
Variables (x y : coloring).

Record yrel (a b : carry) : Prop := {
  yr_off : y_off b = y_off a;
  yr_op : y_op b = y_op a;
  yr_et : crel x y (y_et a) (y_et b);
  yr_ret : y_ret b = y_ret a;
  yr_sb : y_sb b = y_sb a;
  yr_consumed : y_consumed b = y_consumed a;
  yr_fresh : y_fresh b = y_fresh a }.

Definition prel (r s : pround) : Prop :=
  match r, s with
  | RdOk q lines a u, RdOk q' lines' a' u' => q' = q /\ lines' = lines /\ arel x y a a' /\ vrel x y u u'
  | RdFail, RdFail | RdAssert, RdAssert | RdInvalid, RdInvalid | RdUninit, RdUninit | RdFuel, RdFuel => True
  | _, _ => False
  end.

Lemma finish_color : forall ps o la inp c d m m', yrel c d -> rrel (vrel x y) m m' ->
  prel (finish_one (mkcf ps o x) la inp c m) (finish_one (mkcf ps o y) la inp d m').
Proof.
  intros ps o la inp c d m m' HY HM. destruct m as [s|s| |], m' as [t|t| |]; try contradiction; cbn [finish_one]; try exact I.
  destruct HM as [M1 [M2 [M3 M4 M5 M6]]]. cbn [cf_position].
  rewrite M1, M2, M3, M4, (yr_off _ _ HY), (yr_ret _ _ HY), (yr_sb _ _ HY), (yr_consumed _ _ HY), (yr_fresh _ _ HY).
  match goal with |- prel (match exec ?e ?ts ?a with _ => _ end) (match exec ?e ?ts ?a' with _ => _ end) =>
    assert (arel x y a a') as HA; [|pose proof (exec_color x y e ts a a' HA) as K; destruct (exec e ts a) as [b| | |], (exec e ts a') as [b'| | |]] end;
    try contradiction; try exact I.
  - exists (et_errs (c_et (user t))). split; [reflexivity|]. apply M6.
  - pose proof K as [es [-> HE]]. cbn [set_errs a_blocks a_prev a_ops]. destruct (a_blocks b) as [|k [|k2 ks]]; try exact I.
    match goal with |- prel (if ?z then _ else _) _ => destruct z end; [|exact I]. cbn. split; [reflexivity|]. split; [reflexivity|].
    split; [exact K|]. split; auto.
Qed.

Lemma one_color : forall ps o la r inp c d, yrel c d ->
  prel (parse_one (mkcf ps o x) la r inp c) (parse_one (mkcf ps o y) la r inp d).
Proof.
  intros ps o la r inp c d HY. rewrite !parse_one_eq. apply finish_color; [exact HY|]. cbn [cf_color].
  unfold crun. generalize (cfuel inp). intros k. rewrite (yr_off _ _ HY).
  apply run_rel.
  - intros q i z u v. apply vrel_step.
  - split; [reflexivity|]. split; [reflexivity|]. split; cbn; try reflexivity; apply HY.
Qed.

Lemma loop_color : forall k ps o la cb cb' fl inp n c d done done' last, yrel c d ->
  (forall l l', Forall2 (same_segment x y) l l' -> cb' l' = cb l) -> Forall2 (same_segment x y) done done' ->
  same_outcome x y (ploop k (mkcf ps o x) la cb fl inp n c done last) (ploop k (mkcf ps o y) la cb' fl inp n d done' last).
Proof.
  induction k as [|k IH]; intros ps o la cb cb' fl inp n c d done done' last HY HC HD; [exact I|]. cbn [ploop].
  pose proof (one_color ps o la (start_rule fl) inp c d HY) as K.
  destruct (parse_one (mkcf ps o x) la (start_rule fl) inp c) as [q lines a u| | | | |],
           (parse_one (mkcf ps o y) la (start_rule fl) inp d) as [q' lines' a' u'| | | | |]; try contradiction; try exact I.
  destruct K as [-> [-> [[es [-> HE]] HU]]]. cbn [set_errs a_consumed a_result a_errs a_eof a_blocks a_ret a_sb a_fresh].
  rewrite (nonempty_alike _ _ _ _ _ HE), (yr_off _ _ HY).
  destruct (a_consumed a =? 0).
  { match goal with |- context [if ?z then PRet _ _ _ else _] => destruct z end; [|exact I]. cbn. auto. }
  destruct (input_position (y_off c) lines (a_consumed a)) as [en|]; [|exact I].
  set (roots := match a_blocks a with b :: _ => b_kids b | [] => [] end).
  pose proof (make_segment_fields n (mkrange (y_off c) en) (a_errs a) roots (a_result a) (a_eof a)) as F.
  pose proof (make_segment_fields n (mkrange (y_off c) en) es roots (a_result a) (a_eof a)) as F'. cbv zeta in F, F'.
  set (seg := make_segment n (mkrange (y_off c) en) (a_errs a) roots (a_result a) (a_eof a)) in *.
  set (seg' := make_segment n (mkrange (y_off c) en) es roots (a_result a) (a_eof a)) in *.
  assert (same_segment x y seg seg') as HS.
  { destruct F as (F1 & F2 & F3 & F4 & F5 & F6), F' as (G1 & G2 & G3 & G4 & G5 & G6).
    repeat (split; [congruence|]). rewrite F2, G2. exact HE. }
  assert (Forall2 (same_segment x y) (done ++ [seg]) (done' ++ [seg'])) as HD' by (apply Forall2_app; auto).
  rewrite (HC _ _ HD'). destruct (0 <? cb (done ++ [seg]))%Z; [cbn; auto|]. destruct (cb (done ++ [seg]) <? 0)%Z; [cbn; auto|].
  destruct (a_eof a || pf_single fl); [cbn; auto|].
  assert (s_nnodes seg' = s_nnodes seg) as -> by apply HS.
  apply IH; auto. split; cbn; try reflexivity.
  - apply HU.
  - destruct HU as [_ _ _ [E1 E2 E3 E4 E5]]. split; cbn; auto.
Qed.

Lemma each_color : forall ps o la cb cb' fl inp,
  (forall l l', Forall2 (same_segment x y) l l' -> cb' l' = cb l) ->
  same_outcome x y (parse_each (mkcf ps o x) la cb fl inp) (parse_each (mkcf ps o y) la cb' fl inp).
Proof.
  intros. rewrite !parse_each_eq. cbn [cf_ordinal]. apply loop_color; auto. split; try reflexivity. split; try reflexivity. constructor.
Qed.
End Rounds.
