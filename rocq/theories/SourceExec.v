(** * The actions see the same bytes whether or not more of the input is in the buffer *)
From Coq Require Import List Bool Arith Lia ZArith.
From Verif Require Import Peg PegProofs QuickModel ErrModel
  CypherSyntax CypherMatch AstTypes AstModel CypherBuild CypherExec CypherParse UtilProofs.
Import ListNotations.

(** ** Relating two runs *)

Definition shape (x : bool) (e : perror) : position * bytes * option (option (bytes * nat)) :=
  (pe_pos e, pe_msg e, option_map (fun c => if x then Some c else None) (pe_ctx e)).

Definition rel (x : bool) (a a' : astate) : Prop :=
  exists es, a' = set_errs a es /\ map (shape x) es = map (shape x) (a_errs a).

Definition xrel {X Y} (P : X -> Y -> Prop) (r : xres X) (r' : xres Y) : Prop :=
  match r, r' with
  | XOk x, XOk y => P x y
  | XAssert, XAssert | XInvalid, XInvalid | XUninit, XUninit => True
  | _, _ => False
  end.

Lemma xrel_bind : forall X Y X' Y' (P : X -> X' -> Prop) (P' : Y -> Y' -> Prop) r r' f f',
  xrel P r r' -> (forall x x', P x x' -> r = XOk x -> xrel P' (f x) (f' x')) ->
  xrel P' (xbind r f) (xbind r' f').
Proof.
  intros X Y X' Y' P P' r r' f f' H K.
  destruct r, r'; cbn in *; try contradiction; auto.
Qed.

Lemma xrel_eq : forall X (r : xres X), xrel eq r r.
Proof. intros X [ ]; cbn; auto. Qed.

Lemma xrel_imp : forall X Y (P P' : X -> Y -> Prop) r r', (forall x y, P x y -> P' x y) -> xrel P r r' -> xrel P' r r'.
Proof. intros X Y P P' r r' H. destruct r, r'; cbn; auto. Qed.

Section Rel.
Variable ex : bool.
Variables e e' : xenv.
Hypothesis Hoff : e_off e' = e_off e.
Hypothesis Hlines : e_lines e' = e_lines e.
Hypothesis Hpos : e_pos e' = e_pos e.
Hypothesis Hseen : ex = true -> firstn (e_limit e') (e_inp e') = firstn (e_limit e) (e_inp e).
Hypothesis Hslice : forall b f, f <= e_pos e -> slice (e_inp e') b f = slice (e_inp e) b f.

(** the errors lie within both buffers *)
Definition near (r : perror) : Prop :=
  let d := offset (pe_pos r) - offset (e_off e) in
  line_context (firstn (e_limit e) (e_inp e)) d 80 <> None /\
  line_context (firstn (e_limit e') (e_inp e')) d 80 <> None.

Record inb (a : astate) : Prop := {
  in_blocks : Forall (fun b => b_bend b <= e_pos e) (a_blocks a);
  in_prev : forall b, a_prev a = Some b -> b_bend b <= e_pos e;
  in_errs : Forall near (a_errs a) }.

Definition R (a a' : astate) : Prop := rel ex a a' /\ inb a.

Lemma R_intro : forall a es, inb a -> map (shape ex) es = map (shape ex) (a_errs a) -> R a (set_errs a es).
Proof. intros a es H E. split; [ exists es; auto | exact H ]. Qed.

Lemma position_same : forall p, x_position e' p = x_position e p.
Proof. intros p. unfold x_position. rewrite Hoff, Hlines. reflexivity. Qed.

Lemma block_free_errs : forall b a, exists l, block_free b a = set_lost a l.
Proof. intros [ b | ] a; [ eexists; reflexivity | exists (a_lost a); destruct a; reflexivity ]. Qed.

Lemma block_start_rel : forall p a a', p <= e_pos e -> R a a' ->
  xrel R (do_block_start e p a) (do_block_start e' p a').
Proof.
  intros p a a' Hp [ (es & -> & E) H ]. unfold do_block_start. rewrite position_same.
  eapply xrel_bind; [ apply xrel_eq | ]. intros ps ps' <- _. cbn [xrel].
  split.
  - exists es. split; [ destruct (a_prev a) eqn:Ep; cbn; rewrite ?Ep; reflexivity | ].
    rewrite E. destruct (a_prev a); reflexivity.
  - destruct H as [ H1 H2 H3 ]. split.
    + destruct (a_prev a); cbn; constructor; auto.
    + destruct (a_prev a); cbn; discriminate.
    + destruct (a_prev a); exact H3.
Qed.

Definition Rb (x x' : block * position * astate) : Prop :=
  fst x = fst x' /\ R (snd x) (snd x') /\ b_bend (fst (fst x)) <= e_pos e.

Lemma close_block_rel : forall p a a', p <= e_pos e -> R a a' ->
  xrel Rb (close_block e p a) (close_block e' p a').
Proof.
  intros p a a' Hp [ (es & -> & E) H ]. unfold close_block. rewrite position_same.
  eapply xrel_bind; [ apply xrel_eq | ]. intros ps ps' <- _. cbn [a_blocks set_errs a_prev].
  destruct (a_blocks a) as [ | b bs ] eqn:Eb; [ exact I | ].
  destruct (_ && _ && _); [ | exact I ].
  cbn [xrel]. split; [ reflexivity | ]. cbn [snd]. split; [ | exact Hp ].
  split; [ exists es; split; [ reflexivity | exact E ] | ].
  destruct H as [ H1 H2 H3 ]. rewrite Eb in H1. split; cbn.
  - exact (Forall_inv_tail H1).
  - intros q Q. injection Q as <-. exact Hp.
  - exact H3.
Qed.

Lemma block_end_rel : forall p a a', p <= e_pos e -> R a a' ->
  xrel R (do_block_end e p a) (do_block_end e' p a').
Proof.
  intros p a a' Hp H. unfold do_block_end.
  eapply xrel_bind; [ apply close_block_rel; eauto | ]. intros x x' (_ & Hx & _) _. exact Hx.
Qed.

Lemma R_blocks : forall a a' bs, R a a' -> Forall (fun b => b_bend b <= e_pos e) bs ->
  R (set_blocks a bs) (set_blocks a' bs).
Proof.
  intros a a' bs [ (es & -> & E) [ H1 H2 H3 ] ] Hb. split; [ exists es; split; [ reflexivity | exact E ] | ].
  split; cbn; auto.
Qed.

Lemma R_prev : forall a a' b, R a a' -> (forall q, b = Some q -> b_bend q <= e_pos e) ->
  R (set_prev a b) (set_prev a' b).
Proof.
  intros a a' bs [ (es & -> & E) [ H1 H2 H3 ] ] Hb. split; [ exists es; split; [ reflexivity | exact E ] | ].
  split; cbn; auto.
Qed.

Lemma R_fields : forall a a', R a a' -> a_blocks a' = a_blocks a /\ a_prev a' = a_prev a /\
  a_frames a' = a_frames a /\ a_ret a' = a_ret a /\ a_ops a' = a_ops a /\ a_sb a' = a_sb a /\
  a_fresh a' = a_fresh a.
Proof. intros a a' [ (es & -> & _) _ ]. repeat split. Qed.

Lemma R_inb : forall a a', R a a' -> Forall (fun b => b_bend b <= e_pos e) (a_blocks a).
Proof. intros a a' [ _ [ H _ _ ] ]. exact H. Qed.

Lemma block_replace_rel : forall p a a', p <= e_pos e -> R a a' ->
  xrel R (do_block_replace e p a) (do_block_replace e' p a').
Proof.
  intros p a a' Hp H. unfold do_block_replace.
  eapply xrel_bind; [ apply close_block_rel; eauto | ].
  intros [ [ b ps ] x ] [ [ b' ps' ] x' ] (Ex & Hx & _) _. cbn [fst snd] in *. injection Ex as <- <-.
  destruct (R_fields _ _ Hx) as (-> & _). cbn [xrel]. apply R_blocks; [ exact Hx | ].
  constructor; [ exact Hp | exact (R_inb _ _ Hx) ].
Qed.

Lemma block_merge_rel : forall p a a', p <= e_pos e -> R a a' ->
  xrel R (do_block_merge e p a) (do_block_merge e' p a').
Proof.
  intros p a a' Hp H. unfold do_block_merge.
  eapply xrel_bind; [ apply close_block_rel; eauto | ].
  intros [ [ b ps ] x ] [ [ b' ps' ] x' ] (Ex & Hx & Hq) _. cbn [fst snd] in *. injection Ex as <- <-.
  destruct (b_kids b); [ exact Hx | ].
  destruct (R_fields _ _ Hx) as (-> & _). pose proof (R_inb _ _ Hx) as Hi.
  destruct (a_blocks x) as [ | q bs ]; [ exact I | ]. cbn [xrel].
  apply R_prev; [ apply R_blocks; [ exact Hx | ] | ].
  - constructor; [ exact (Forall_inv Hi) | exact (Forall_inv_tail Hi) ].
  - intros z Z. injection Z as <-. exact Hq.
Qed.

Lemma put_slot_rel : forall k v a a', R a a' -> xrel R (put_slot k v a) (put_slot k v a').
Proof.
  intros k v a a' [ (es & -> & E) [ H1 H2 H3 ] ]. unfold put_slot. cbn [a_frames set_errs].
  destruct (a_frames a); [ exact I | ]. destruct (upd l k (Some v)); [ | exact I ].
  cbn [xrel]. split; [ exists es; split; [ reflexivity | exact E ] | split; auto ].
Qed.

Lemma eval_arg_rel : forall x a a', R a a' -> eval_arg x a' = eval_arg x a.
Proof. intros x a a' [ (es & -> & E) _ ]. destruct x; reflexivity. Qed.

Lemma eval_args_rel : forall l a a', R a a' -> eval_args l a' = eval_args l a.
Proof.
  induction l as [ | x l IH ]; intros a a' H; [ reflexivity | ]. cbn [eval_args].
  rewrite (eval_arg_rel x a a' H), (IH a a' H). reflexivity.
Qed.

Lemma eval_bparams_same : forall b args sb ops l, b_bend b <= e_pos e ->
  eval_bparams (e_inp e') b args sb ops l = eval_bparams (e_inp e) b args sb ops l.
Proof.
  intros b args sb ops l H. revert ops. induction l as [ | p l IH ]; intros ops; [ reflexivity | ].
  cbn [eval_bparams].
  replace (eval_bparam (e_inp e') b args sb ops p) with (eval_bparam (e_inp e) b args sb ops p).
  - destruct (eval_bparam (e_inp e) b args sb ops p) as [ [ x o ] | ]; [ rewrite IH | ]; reflexivity.
  - destruct p; cbn [eval_bparam]; rewrite ?Hslice by exact H; reflexivity.
Qed.

Definition Rn {X} (x x' : X * astate) : Prop := fst x' = fst x /\ R (snd x) (snd x').

Lemma do_build_rel : forall c l a a', R a a' -> xrel Rn (do_build e c l a) (do_build e' c l a').
Proof.
  intros c l a a' Ra. unfold do_build.
  destruct (R_fields _ _ Ra) as (-> & -> & _ & _ & -> & -> & ->).
  pose proof Ra as [ (es & -> & E) [ H1 H2 H3 ] ].
  destruct (a_prev a) as [ b | ] eqn:Ep; [ | exact I ]. specialize (H2 b eq_refl).
  destruct (build_call c) as [ ty bps ].
  rewrite (eval_bparams_same b l (a_sb a) (a_ops a) bps H2).
  destruct (eval_bparams _ _ _ _ _ _) as [ [ ps ops ] | ]; [ | exact I ].
  destruct (terminal ty && nonempty (b_kids b)); [ exact I | ].
  destruct (construct _ _ _ _ _) as [ n | ]; [ | exact I ].
  destruct (a_blocks a) as [ | q bs ] eqn:Eb; [ exact I | ].
  cbn [xrel]. split; [ reflexivity | ]. cbn [snd]. split; [ exists es; split; [ reflexivity | exact E ] | ].
  split; cbn; [ | discriminate | exact H3 ].
  constructor; [ exact (Forall_inv H1) | exact (Forall_inv_tail H1) ].
Qed.

Lemma eval_rhs_rel : forall r a a', R a a' -> xrel Rn (eval_rhs e r a) (eval_rhs e' r a').
Proof.
  intros [ x | c l ] a a' H; cbn [eval_rhs].
  - rewrite (eval_arg_rel x a a' H). eapply xrel_bind; [ apply xrel_eq | ].
    intros v v' <- _. split; [ reflexivity | exact H ].
  - rewrite (eval_args_rel l a a' H). eapply xrel_bind; [ apply xrel_eq | ].
    intros v v' <- _. eapply xrel_bind; [ apply do_build_rel; exact H | ].
    intros [ n x ] [ n' x' ] [ K1 K2 ] _. cbn in *. split; [ cbn; congruence | exact K2 ].
Qed.

Lemma fill_rel : forall es es', map (shape ex) es' = map (shape ex) es -> Forall near es ->
  xrel (fun r r' => map (shape ex) r' = map (shape ex) r /\ map pe_pos r = map pe_pos es)
    (fill_contexts e es) (fill_contexts e' es').
Proof.
  induction es as [ | r es IH ]; intros es' E H; destruct es' as [ | r' es' ]; try discriminate E.
  - cbn. auto.
  - cbn [map] in E. injection E as E0 E1 E2 E3. cbn [fill_contexts].
    pose proof (Forall_inv H) as [ N1 N2 ]. rewrite E0, Hoff.
    destruct (pe_ctx r) as [ x | ] eqn:Ex, (pe_ctx r') as [ x' | ] eqn:Ex'; try discriminate E2.
    + cbn [xrel map]. split; [ | reflexivity ].
      unfold shape at 1 3. rewrite E0, E1, Ex, Ex', E2, E3. reflexivity.
    + destruct (line_context (firstn (e_limit e) (e_inp e)) (offset (pe_pos r) - offset (e_off e)) 80) as [ c | ] eqn:C;
        [ | congruence ].
      destruct (line_context (firstn (e_limit e') (e_inp e')) (offset (pe_pos r) - offset (e_off e)) 80) as [ c' | ] eqn:C';
        [ | congruence ].
      eapply xrel_bind; [ apply IH; [ exact E3 | exact (Forall_inv_tail H) ] | ].
      intros l l' [ K1 K2 ] _. cbn [xrel map pe_pos pe_msg pe_ctx].
      unfold shape at 1 3. cbn [pe_pos pe_msg pe_ctx option_map]. rewrite E1, K1, K2.
      split; [ | reflexivity ]. destruct ex; [ | reflexivity ].
      rewrite (Hseen eq_refl) in C'. congruence.
Qed.

Lemma near_pos : forall l l', map pe_pos l = map pe_pos l' -> Forall near l' -> Forall near l.
Proof.
  induction l as [ | r l IH ]; intros [ | r' l' ] E H; try discriminate; [ constructor | ].
  cbn in E. injection E as E1 E2. constructor; [ | apply (IH l' E2), (Forall_inv_tail H) ].
  pose proof (Forall_inv H) as K. unfold near in *. rewrite E1. exact K.
Qed.

Lemma finished_rel : forall a a', R a a' -> xrel R (do_finished e a) (do_finished e' a').
Proof.
  intros a a' [ (es & -> & E) [ H1 H2 H3 ] ]. unfold do_finished. cbn [a_errs set_errs].
  eapply xrel_bind; [ apply fill_rel; [ rewrite !map_rev, E; reflexivity | apply Forall_rev; exact H3 ] | ].
  intros l l' [ K1 K2 ] _. cbn [xrel]. rewrite Hpos. split.
  - exists (rev l'). split; [ reflexivity | ]. cbn. rewrite !map_rev, K1. reflexivity.
  - split; cbn; auto. apply (near_pos _ (a_errs a)); [ | exact H3 ].
    rewrite map_rev, K2, map_rev. apply rev_involutive.
Qed.

Lemma stmt_rel : forall s a a', R a a' -> xrel R (exec_stmt e s a) (exec_stmt e' s a').
Proof.
  assert (Set' : forall a a', R a a' -> forall f : astate -> astate,
    (forall x es, f (set_errs x es) = set_errs (f x) es) ->
    (forall x, a_blocks (f x) = a_blocks x /\ a_prev (f x) = a_prev x /\ a_errs (f x) = a_errs x) ->
    R (f a) (f a')).
  { intros a a' [ (es & -> & E) [ H1 H2 H3 ] ] f F1 F2. destruct (F2 a) as (Q1 & Q2 & Q3).
    split; [ exists es; split; [ apply F1 | rewrite Q3; exact E ] | ].
    split; [ rewrite Q1; exact H1 | rewrite Q2; exact H2 | rewrite Q3; exact H3 ]. }
  induction s as [ | x | x | | s | | | o | r | l r | x s IH ]; intros a a' H; cbn [exec_stmt].
  - apply finished_rel, H.
  - rewrite (eval_arg_rel x a a' H). eapply xrel_bind; [ apply xrel_eq | ]. intros v v' <- _.
    cbn [xrel]. apply (Set' a a' H (fun z => set_result z v)); intros; auto.
  - rewrite (eval_arg_rel x a a' H). eapply xrel_bind; [ apply xrel_eq | ]. intros v v' <- _.
    unfold do_seq_add. destruct (R_fields _ _ H) as (-> & _). destruct v; [ | exact I ].
    pose proof (R_inb _ _ H) as Hi. destruct (a_blocks a); [ exact I | ].
    cbn [xrel]. apply R_blocks; [ exact H | ].
    constructor; [ exact (Forall_inv Hi) | exact (Forall_inv_tail Hi) ].
  - cbn [xrel]. apply (Set' a a' H (fun z => set_sb z [])); intros; auto.
  - cbn [xrel]. destruct (R_fields _ _ H) as (_ & _ & _ & _ & _ & -> & _).
    apply (Set' a a' H (fun z => set_sb z (a_sb a ++ s))); intros; auto.
  - destruct (R_fields _ _ H) as (_ & -> & _ & _ & _ & -> & _).
    pose proof H as [ _ [ _ H2 _ ] ]. destruct (a_prev a) as [ b | ]; [ | exact I ].
    rewrite Hslice by (apply H2; reflexivity). cbn [xrel].
    apply (Set' a a' H (fun z => set_sb z (a_sb a ++ slice (e_inp e) (b_bstart b) (b_bend b)))); intros; auto.
  - cbn [xrel]. apply (Set' a a' H (fun z => set_eof z true)); intros; auto.
  - cbn [xrel]. destruct (R_fields _ _ H) as (_ & _ & _ & _ & -> & _).
    apply (Set' a a' H (fun z => set_ops z (o :: a_ops a))); intros; auto.
  - eapply xrel_bind; [ apply eval_rhs_rel; exact H | ]. intros x x' [ _ K ] _. exact K.
  - destruct l as [ | k ].
    + eapply xrel_bind; [ apply eval_rhs_rel; exact H | ]. intros x x' [ K1 K2 ] _. rewrite K1. cbn [xrel].
      apply (Set' (snd x) (snd x') K2 (fun z => set_ret z (fst x))); intros; auto.
    + eapply xrel_bind; [ apply eval_rhs_rel; exact H | ]. intros x x' [ K1 K2 ] _. rewrite K1.
      apply put_slot_rel, K2.
  - rewrite (eval_arg_rel x a a' H). eapply xrel_bind; [ apply xrel_eq | ]. intros v v' <- _.
    destruct (match v with Some n => is_a n T_IDENTIFIER | None => false end); [ exact H | apply IH, H ].
Qed.

Lemma stmts_rel : forall l a a', R a a' -> xrel R (exec_stmts e l a) (exec_stmts e' l a').
Proof.
  induction l as [ | s l IH ]; intros a a' H; cbn [exec_stmts]; [ exact H | ].
  eapply xrel_bind; [ apply stmt_rel; exact H | ]. intros x x' K _. apply IH, K.
Qed.

Lemma action_rel : forall t p a a', p <= e_pos e -> R a a' ->
  xrel R (exec_action e t p a) (exec_action e' t p a').
Proof.
  intros t p a a' Hp H. destruct t as [ n | n | k | | | | | l ]; cbn [exec_action].
  - destruct H as [ (es & -> & E) [ H1 H2 H3 ] ]. split; [ exists es; split; [ reflexivity | exact E ] | split; auto ].
  - destruct H as [ (es & -> & E) [ H1 H2 H3 ] ]. split; [ exists es; split; [ reflexivity | exact E ] | split; auto ].
  - destruct (R_fields _ _ H) as (_ & _ & _ & -> & _). apply put_slot_rel, H.
  - apply block_start_rel; auto.
  - apply block_end_rel; auto.
  - apply block_replace_rel; auto.
  - apply block_merge_rel; auto.
  - apply stmts_rel, H.
Qed.

Lemma exec_rel : forall ts a a', Forall (fun t => snd t <= e_pos e) ts -> R a a' ->
  xrel R (exec e ts a) (exec e' ts a').
Proof.
  induction ts as [ | [ t p ] ts IH ]; intros a a' Ht H; cbn [exec]; [ exact H | ].
  eapply xrel_bind; [ apply action_rel; [ exact (Forall_inv Ht) | exact H ] | ].
  intros x x' K _. apply IH; [ exact (Forall_inv_tail Ht) | exact K ].
Qed.

End Rel.
