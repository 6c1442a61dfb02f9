(** * One round of the quick grammar, in terms of the specification *)
From Verif Require Import Peg PegWf PegProofs PegEval QuickModel QuickSpec QuickLex.

Lemma tok_le : forall s, tok s <= List.length s.
Proof.
  intros s. destruct s as [|c r]; [cbn; lia|].
  destruct (starts_quote (c :: r)) eqn:Hq.
  { destruct (quoted_yes _ Hq) as [z [Y _]]. exact (yes_length _ _ _ _ Y). }
  destruct (starts_line_comment (c :: r)) eqn:Hl.
  { exact (yes_length _ _ _ _ (line_comment_yes _ Hl)). }
  cbn [tok]. cbn in Hq. rewrite Hq. destruct r as [|d r]; [cbn; lia|].
  cbn in Hl. rewrite Hl. destruct (beq c "/" && beq d "*") eqn:Hb.
  - destruct (through_close r) as [n|] eqn:Hc; [|lia].
    assert (starts_block_comment (c :: d :: r) = true) as Hs by (cbn; rewrite Hb, Hc; reflexivity).
    pose proof (yes_length _ _ _ _ (block_comment_yes _ Hs)) as L.
    apply andb_true_iff in Hb. destruct Hb as [H1 H2]. apply beq_true in H1, H2. subst.
    cbn in L. rewrite Hc in L. cbn. lia.
  - destruct (beq c BSL && in_class escapes d); cbn; lia.
Qed.

Lemma tok_skip_lt : forall c r, List.length (skipn (tok (c :: r)) (c :: r)) < List.length (c :: r).
Proof. intros. apply skipn_lt; [apply tok_pos|discriminate]. Qed.

(** first byte facts *)
Lemma comment_hd : forall s, starts_line_comment s = true \/ starts_block_comment s = true \/
  starts_unclosed_comment s = true -> exists d r, s = ("/" :: d :: r)%char.
Proof.
  intros [|c [|d r]] H; cbn in H; try (destruct H as [H|[H|H]]; discriminate).
  exists d, r. f_equal. destruct H as [H|[H|H]]; apply andb_true_iff in H.
  - destruct H as [H _]. apply beq_true in H. auto.
  - destruct H as [H _]. apply andb_true_iff in H. destruct H as [H _]. apply beq_true in H. auto.
  - destruct H as [H _]. apply andb_true_iff in H. destruct H as [H _]. apply beq_true in H. auto.
Qed.

(** the single-byte tokens *)
Lemma tok_single : forall c r, starts_quote (c :: r) = false ->
  starts_line_comment (c :: r) = false -> starts_block_comment (c :: r) = false ->
  starts_unclosed_comment (c :: r) = false -> starts_escape (c :: r) = false ->
  tok (c :: r) = 1.
Proof.
  intros c r H1 H2 H3 H4 H5. cbn [tok]. cbn in H1. rewrite H1. destruct r as [|d r]; [reflexivity|].
  cbn in H2. rewrite H2. cbn in H3, H4.
  destruct (beq c "/" && beq d "*"); cbn in H3, H4.
  - destruct (through_close r); discriminate.
  - cbn [starts_escape] in H5. rewrite H5. reflexivity.
Qed.
Lemma tok_hspace : forall c r, starts_hspace (c :: r) = true -> tok (c :: r) = 1.
Proof.
  intros c r H. cbn in H. apply orb_true_iff in H.
  destruct H as [H|H]; apply beq_true in H; subst; cbn; destruct r; reflexivity.
Qed.
Lemma tok_nl : forall r, tok (NL :: r) = 1.
Proof. intros [|d r]; reflexivity. Qed.
Lemma tok_cr : forall r, tok (CR :: r) = 1.
Proof. intros [|d r]; reflexivity. Qed.

(** ** Statements *)
Lemma blanks_extent : forall s j, blanks s j -> forall k,
  statement_extent (skipn j s) k -> statement_extent s (j + k).
Proof.
  induction 1 as [s|c r j Hc _ IH|r j _ IH|r j _ IH|s j Hc _ IH]; intros k Hk.
  - exact Hk.
  - change (S j + k) with (1 + (j + k)). rewrite <- (tok_hspace c r Hc). apply se_tok.
    + intros ->. discriminate.
    + rewrite (tok_hspace c r Hc). apply IH. exact Hk.
  - change (S j + k) with (1 + (j + k)). rewrite <- (tok_nl r). apply se_tok; [discriminate|].
    rewrite tok_nl. apply IH. exact Hk.
  - change (S (S j) + k) with (1 + (1 + (j + k))). rewrite <- (tok_cr (NL :: r)) at 1.
    apply se_tok; [discriminate|]. rewrite tok_cr. cbn [skipn].
    rewrite <- (tok_nl r) at 1. apply se_tok; [discriminate|]. rewrite tok_nl. apply IH. exact Hk.
  - rewrite <- Nat.add_assoc.
    destruct (comment_hd s) as [d [r E]]. { destruct Hc; auto. } subst s.
    apply se_tok; [discriminate|]. apply IH. rewrite <- skipn_add. exact Hk.
Qed.
Lemma blanks_terminated : forall s j, blanks s j ->
  statement_terminated (skipn j s) -> statement_terminated s.
Proof.
  induction 1 as [s|c r j Hc _ IH|r j _ IH|r j _ IH|s j Hc _ IH]; intros Hk.
  - exact Hk.
  - apply st_tok. { intros ->. discriminate. } rewrite (tok_hspace c r Hc). apply IH. exact Hk.
  - apply st_tok; [discriminate|]. rewrite tok_nl. apply IH. exact Hk.
  - apply st_tok; [discriminate|]. rewrite tok_cr. cbn [skipn].
    apply st_tok; [discriminate|]. rewrite tok_nl. apply IH. exact Hk.
  - destruct (comment_hd s) as [d [r E]]. { destruct Hc; auto. } subst s.
    apply st_tok; [discriminate|]. apply IH. rewrite <- skipn_add. exact Hk.
Qed.

Definition starts_semi (s : bytes) : bool :=
  match s with c :: _ => beq c SEMI | [] => false end.

(** the specification is functional *)
Lemma extent_det : forall s k, statement_extent s k -> forall k', statement_extent s k' -> k = k'.
Proof.
  induction 1 as [|r|c r k Hc H IH]; intros k' H'; inversion H'; subst; auto; try contradiction.
Qed.

Lemma terminated_nonempty : ~ statement_terminated [].
Proof. intros H. inversion H. Qed.

Lemma blanks_det : forall s k, blanks s k -> forall k', blanks s k' -> k = k'.
Proof.
  intros s b Hb b' Hb'.
  destruct (sp_yes s b Hb) as [z0 [[_ Y0] _]]. destruct (sp_yes s b' Hb') as [z1 [[_ Y1] _]].
  destruct (Y0 s 0 [] 0 0 [] eq_refl) as [l0 [t0 [E0 _]]].
  destruct (Y1 s 0 [] 0 0 [] eq_refl) as [l1 [t1 [E1 _]]].
  pose proof (ev_det _ _ _ _ _ _ _ E0 E1) as E. injection E. auto.
Qed.
Lemma hblanks_det : forall s k, hblanks s k -> forall k', hblanks s k' -> k = k'.
Proof.
  intros s b Hb b' Hb'.
  destruct (hsp_yes s b Hb) as [_ Y0]. destruct (hsp_yes s b' Hb') as [_ Y1].
  destruct (Y0 s 0 [] 0 0 [] eq_refl) as [l0 [t0 [E0 _]]].
  destruct (Y1 s 0 [] 0 0 [] eq_refl) as [l1 [t1 [E1 _]]].
  pose proof (ev_det _ _ _ _ _ _ _ E0 E1) as E. injection E. auto.
Qed.

(** a first byte that is neither blank nor a semicolon *)
Lemma not_semi_after : forall c r, starts_hspace (c :: r) = false -> starts_eol (c :: r) = false ->
  starts_line_comment (c :: r) = false -> starts_block_comment (c :: r) = false ->
  c <> SEMI -> ~ semi_after_blanks (c :: r).
Proof.
  intros c r H1 H2 H3 H4 H5 [j [r' [Hb Hs]]].
  assert (j = 0) as -> by (eapply blanks_det; [exact Hb|apply bl_stop; auto]).
  cbn in Hs. congruence.
Qed.
Lemma not_semi_after_j : forall s j, blanks s j -> starts_semi (skipn j s) = false -> ~ semi_after_blanks s.
Proof.
  intros s j Hj Hs [j' [r' [Hb Hs']]].
  rewrite (blanks_det _ _ Hj _ Hb), Hs' in Hs. discriminate.
Qed.

Lemma text_det : forall s k, statement_text s k -> forall k', statement_text s k' -> k = k'.
Proof.
  induction 1 as [|s H1 H2 H3|c r k Hc H IH]; intros k' H'; inversion H'; subst; auto.
  - exfalso. intuition congruence.
  - exfalso. intuition congruence.
Qed.

Lemma statement_body_yes : forall n s, List.length s <= n ->
  exists kb z j,
    yes (QG Qstatement_body) s kb z /\ (z = true -> kb = List.length s) /\
    statement_text s kb /\ blanks (skipn kb s) j /\
    ((skipn (kb + j) s = [] /\ j = 0 /\ statement_extent s kb /\ ~ statement_terminated s) \/
     (exists r, skipn (kb + j) s = SEMI :: r /\ statement_extent s (kb + j + 1) /\ statement_terminated s)).
Proof.
  induction n as [|n IH]; intros s Hn.
  { destruct s; [|cbn in Hn; lia]. exists 0, false, 0. split; [|split; [discriminate|split; [apply tx_eof|split]]].
    - destruct (sp_yes [] 0) as [z [Y _]]; [apply bl_stop; reflexivity|].
      cbn [QG]. apply yes_star_stop.
      apply no_alt; [apply comment_no; reflexivity|]. apply no_alt; [apply quoted_no; reflexivity|].
      apply no_alt; [apply unclosed_no; reflexivity|]. apply no_alt; [apply escaped_no; reflexivity|].
      eapply no_seq2; [apply yes_not|apply no_dot]. eapply no_seq2.
      + exact Y.
      + apply no_chr. discriminate.
    - apply bl_stop; reflexivity.
    - left. repeat split; [constructor|apply terminated_nonempty]. }
  destruct s as [|c r]; [apply IH; cbn; lia|].
  (* a step over a multi-byte token *)
  assert (Hstep : forall z1, c <> SEMI ->
    starts_line_comment (c :: r) = true \/ starts_block_comment (c :: r) = true \/
      ~ semi_after_blanks (c :: r) ->
    yes (rl Qcomment ∥ rl Qquoted ∥ rl Qunclosed_block_comment ∥ rl Qescaped_char
            ∥ PNot (rl Qsp ⋅ chr SEMI) ⋅ PDot) (c :: r) (tok (c :: r)) z1 ->
    (z1 = true -> tok (c :: r) = List.length (c :: r)) ->
    exists kb z j,
    yes (QG Qstatement_body) (c :: r) kb z /\ (z = true -> kb = List.length (c :: r)) /\
    statement_text (c :: r) kb /\ blanks (skipn kb (c :: r)) j /\
    ((skipn (kb + j) (c :: r) = [] /\ j = 0 /\ statement_extent (c :: r) kb /\ ~ statement_terminated (c :: r)) \/
     (exists r0, skipn (kb + j) (c :: r) = SEMI :: r0 /\ statement_extent (c :: r) (kb + j + 1) /\ statement_terminated (c :: r)))).
  { intros z1 Hc Htx Y Hz. pose proof (tok_skip_lt c r) as Hlt. pose proof (tok_le (c :: r)) as Hle.
    destruct (IH (skipn (tok (c :: r)) (c :: r))) as [kb [z [j [Y1 [Hz1 [Htt [Hb Hd]]]]]]]; [cbn in *; lia|].
    exists (tok (c :: r) + kb), (z1 || z), j. split; [|split; [|split; [apply tx_tok; auto|split]]].
    - cbn [QG]. apply yes_star_step; auto.
    - intros E. apply orb_true_iff in E. pose proof (yes_length _ _ _ _ Y1) as L.
      rewrite skipn_length in *. destruct E as [E|E]; [apply Hz in E|apply Hz1 in E]; lia.
    - rewrite skipn_add. exact Hb.
    - rewrite <- !Nat.add_assoc in *. rewrite !skipn_add in *.
      destruct Hd as [[D1 [D2 [D3 D4]]]|[r0 [D1 [D2 D3]]]].
      + left. repeat split; auto. { apply se_tok; auto. }
        intros E. inversion E; subst; contradiction.
      + right. exists r0. repeat split; auto.
        * apply se_tok; auto.
        * apply st_tok; auto. }
  destruct (starts_line_comment (c :: r)) eqn:H1;
  [|destruct (starts_block_comment (c :: r)) eqn:H2].
  - destruct (comment_yes (c :: r)) as [z1 [Y1 Hz1]]; [auto|].
    apply (Hstep z1).
    + destruct (comment_hd (c :: r)) as [d [r' E]]; [auto|]. injection E as -> _. discriminate.
    + auto.
    + apply yes_alt1. exact Y1.
    + intros E. destruct (Hz1 E). apply line_comment_eof; auto.
  - destruct (comment_yes (c :: r)) as [z1 [Y1 Hz1]]; [auto|].
    apply (Hstep z1).
    + destruct (comment_hd (c :: r)) as [d [r' E]]; [auto|]. injection E as -> _. discriminate.
    + auto.
    + apply yes_alt1. exact Y1.
    + intros E. destruct (Hz1 E). apply line_comment_eof; auto.
  - destruct (starts_quote (c :: r)) eqn:H3.
    { destruct (quoted_yes _ H3) as [z1 [Y1 Hz1]]. assert (c = SQ \/ c = DQ) as HQ
        by (cbn in H3; unfold is_quote in H3; apply orb_true_iff in H3; rewrite !beq_true in H3; auto).
      apply (Hstep z1); auto.
      - intros ->. discriminate.
      - right. right. destruct HQ; subst c; apply not_semi_after; auto; discriminate.
      - apply yes_alt2; [apply comment_no; auto|]. apply yes_alt1. exact Y1. }
    destruct (starts_unclosed_comment (c :: r)) eqn:H4.
    { destruct (unclosed_yes _ H4) as [Y1 Hl]. apply (Hstep true); auto.
      - intros ->. cbn in H4. destruct r; discriminate.
      - right. right. destruct (comment_hd (c :: r)) as [d [r' E]]; [auto|]. injection E as -> ->.
        apply not_semi_after; auto; discriminate.
      - apply yes_alt2; [apply comment_no; auto|]. apply yes_alt2; [apply quoted_no; auto|].
        apply yes_alt1. exact Y1. }
    destruct (starts_escape (c :: r)) eqn:H5.
    { apply (Hstep false).
      - intros ->. destruct r; discriminate.
      - right. right. destruct r as [|d r]; [discriminate|]. cbn [starts_escape] in H5.
        apply andb_true_iff in H5. destruct H5 as [E1 E2]. apply beq_true in E1. subst c.
        apply not_semi_after; auto; discriminate.
      - apply yes_alt2; [apply comment_no; auto|]. apply yes_alt2; [apply quoted_no; auto|].
        apply yes_alt2; [apply unclosed_no; auto|]. apply yes_alt1.
        destruct r as [|d r]; [discriminate|]. cbn [starts_escape] in H5.
        apply andb_true_iff in H5. destruct H5 as [E1 E2]. apply beq_true in E1. subst c.
        assert (tok (BSL :: d :: r) = 2) as ->.
        { cbn [tok]. rewrite E2. reflexivity. }
        apply escaped_yes. auto.
      - discriminate. }
    pose proof (tok_single c r H3 H1 H2 H4 H5) as Ht.
    destruct (blanks_total (List.length (c :: r)) (c :: r) (le_n _)) as [j Hj].
    destruct (sp_yes _ _ Hj) as [z1 [Y1 Hz1]].
    destruct (starts_semi (skipn j (c :: r))) eqn:H6.
    + (* stop here *)
      destruct (skipn j (c :: r)) as [|c' r'] eqn:Hr; [discriminate|]. cbn in H6.
      apply beq_true in H6. subst c'.
      exists 0, false, j. split; [|split; [discriminate|split; [|split; [exact Hj|right]]]].
      2: { apply tx_end; auto. exists j, r'. auto. }
      * cbn [QG]. apply yes_star_stop.
        apply no_alt; [apply comment_no; auto|]. apply no_alt; [apply quoted_no; auto|].
        apply no_alt; [apply unclosed_no; auto|]. apply no_alt; [apply escaped_no; auto|].
        apply no_seq1. eapply no_not. eapply yes_seq; [exact Y1|]. rewrite Hr. apply yes_chr.
      * exists r'. cbn [Nat.add]. split; [exact Hr|]. split.
        -- apply blanks_extent; auto. rewrite Hr. constructor.
        -- eapply blanks_terminated; eauto. rewrite Hr. constructor.
    + apply (Hstep false).
      * intros ->. assert (j = 0) as ->.
        { inversion Hj; subst; auto; try discriminate.
          destruct H as [H|H]; [rewrite H in H1|rewrite H in H2]; discriminate. }
        cbn in H6. discriminate.
      * right. right. eapply not_semi_after_j; eauto.
      * rewrite Ht.
        apply yes_alt2; [apply comment_no; auto|]. apply yes_alt2; [apply quoted_no; auto|].
        apply yes_alt2; [apply unclosed_no; auto|]. apply yes_alt2; [apply escaped_no; auto|].
        change 1 with (0 + 1). change false with (false || false).
        apply yes_seq; [|apply yes_dot]. apply yes_not. eapply no_seq2; [exact Y1|].
        apply no_chr. destruct (skipn j (c :: r)); [discriminate|]. cbn in *.
        apply beq_false in H6. congruence.
      * discriminate.
Qed.

(** Evaluation of the marks *)
Lemma ev_begin : forall inp p th b e0 l,
  qev inp (PPred MBegin) (mkst p th (mkqu b e0 l)) (ROk (mkst p th (mkqu p e0 l))).
Proof. intros. apply ev_pred; [reflexivity|discriminate]. Qed.
Lemma ev_end : forall inp p th b e0 l,
  qev inp (PPred MEnd) (mkst p th (mkqu b e0 l)) (ROk (mkst p th (mkqu b p l))).
Proof. intros. apply ev_pred; [reflexivity|discriminate]. Qed.

(** What a successful round looks like to the driver: [b]/[e]: text range,
    [n]: bytes consumed, [eof]: whether the end of input was recorded. *)
Definition round_ok (r : qrule) (s : bytes) (st : bool) (b e n : nat) (eof : bool) : Prop :=
  forall b0 e0 l, exists l' ts m,
    qev s (PRule r) (mkst 0 [] (mkqu b0 e0 l))
        (ROk (mkst n ((ASegment st, m) :: ts) (mkqu b e l'))) /\
    Forall iseof ts /\ (eof = true <-> ts <> []).

(** the specification of a statement round *)
Inductive statement_round (s : bytes) : nat -> nat -> nat -> bool -> Prop :=
| sr_eof : forall b, blanks s b -> statement_text (skipn b s) (List.length s - b) -> statement_extent s (List.length s) ->
    ~ statement_terminated s ->
    statement_round s b (List.length s) (List.length s) true
| sr_semi : forall b kb j r, blanks s b -> statement_text (skipn b s) kb -> blanks (skipn (b + kb) s) j ->
    skipn (b + kb + j) s = SEMI :: r ->
    statement_extent s (b + kb + j + 1) -> statement_terminated s ->
    statement_round s b (b + kb) (b + kb + j + 1) false.

Lemma skipn_nil_length : forall (s : bytes) k, skipn k s = [] -> k <= List.length s -> k = List.length s.
Proof.
  intros s k H L. assert (List.length (skipn k s) = 0) by (rewrite H; reflexivity).
  rewrite skipn_length in *. lia.
Qed.

Lemma terminated_blanks : forall s j, blanks s j ->
  statement_terminated s -> statement_terminated (skipn j s).
Proof.
  induction 1 as [s|c r j Hc _ IH|r j _ IH|r j _ IH|s j Hc _ IH]; intros Hk.
  - exact Hk.
  - inversion Hk; subst; [discriminate|]. rewrite (tok_hspace c r Hc) in *. auto.
  - inversion Hk; subst. rewrite tok_nl in *. auto.
  - inversion Hk; subst. rewrite tok_cr in *. cbn [skipn] in *.
    match goal with H : statement_terminated (NL :: r) |- _ => inversion H; subst end.
    rewrite tok_nl in *. auto.
  - destruct (comment_hd s) as [d [r E]]. { destruct Hc; auto. } subst s.
    inversion Hk; subst. rewrite skipn_add. auto.
Qed.

Lemma statement_round_ok : forall s, exists b e n eof,
  statement_round s b e n eof /\ round_ok Qstatement s true b e n eof.
Proof.
  intros s. destruct (blanks_total _ s (le_n _)) as [b Hb].
  destruct (sp_yes s b Hb) as [z0 [Y0 Hz0]]. pose proof (yes_length _ _ _ _ Y0) as L0.
  destruct (statement_body_yes _ (skipn b s) (le_n _)) as [kb [z1 [j [Y1 [Hz1 [Htx [Hj Hd]]]]]]].
  pose proof (yes_length _ _ _ _ Y1) as L1. rewrite skipn_length in L1.
  destruct (sp_yes _ _ Hj) as [z2 [Y2 Hz2]].
  pose proof (yes_length _ _ _ _ Y2) as L2. rewrite !skipn_length in L2.
  rewrite <- !skipn_add in *.
  assert (Main : forall t z3, yes (chr SEMI ∥ rl QEOF) (skipn (b + kb + j) s) t z3 ->
    round_ok Qstatement s true b (b + kb) (b + kb + j + t) (z0 || z1 || z2 || z3)).
  { intros t z3 Y3 b0 e0 l. destruct Y0 as [_ Y0]. destruct Y1 as [_ Y1].
    destruct Y2 as [_ Y2]. destruct Y3 as [_ Y3].
    destruct (Y0 s 0 [] b0 e0 l eq_refl) as [l0 [t0 [E0 [F0 Z0]]]].
    destruct (Y1 s b t0 b e0 l0 eq_refl) as [l1 [t1 [E1 [F1 Z1]]]].
    destruct (Y2 s (b + kb) (t1 ++ t0) b (b + kb) l1 eq_refl) as [l2 [t2 [E2 [F2 Z2]]]].
    destruct (Y3 s (b + kb + j) (t2 ++ t1 ++ t0) b (b + kb) l2 eq_refl) as [l3 [t3 [E3 [F3 Z3]]]].
    exists l3, (t3 ++ t2 ++ t1 ++ t0), (b + kb + j + t). split; [|split].
    - apply ev_rule_ok. cbn [QG]. rewrite app_nil_r in E0.
      eapply ev_seq_ok; [exact E0|]. eapply ev_seq_ok; [apply ev_begin|].
      eapply ev_seq_ok; [apply ev_rule_ok; exact E1|]. eapply ev_seq_ok; [apply ev_end|].
      eapply ev_seq_ok; [exact E2|]. eapply ev_seq_ok; [exact E3|]. apply ev_act.
    - rewrite !Forall_app. auto.
    - rewrite !orb_true_iff, Z0, Z1, Z2, Z3.
      destruct t0; destruct t1; destruct t2; destruct t3; cbn; split; intros H; try discriminate;
      try (intuition discriminate); try (intuition congruence). }
  destruct Hd as [[D1 [D2 [D3 D4]]]|[r [D1 [D2 D3]]]].
  - subst j. rewrite ?Nat.add_0_r in *.
    assert (b + kb = List.length s) as Hlen by (apply skipn_nil_length; auto; lia).
    exists b, (b + kb), (b + kb + 0), (z0 || z1 || z2 || true). split.
    + rewrite orb_true_r, !Nat.add_0_r. rewrite Hlen. apply sr_eof; auto.
      * replace (List.length s - b) with kb by lia. exact Htx.
      * rewrite <- Hlen. apply blanks_extent; auto.
      * intros E. apply D4. eapply terminated_blanks; eauto.
    + apply Main. rewrite ?Nat.add_0_r, D1.
      apply yes_alt2; [apply no_chr; discriminate|apply eof_yes].
  - rewrite Nat.add_assoc in D1.
    assert (List.length (skipn (b + kb + j) s) > 0) as Hpos by (rewrite D1; cbn; lia).
    rewrite skipn_length in Hpos.
    exists b, (b + kb), (b + kb + j + 1), (z0 || z1 || z2 || false). split.
    + assert (z0 || z1 || z2 || false = false) as ->.
      { destruct z0; [rewrite Hz0 in * by auto; lia|]. destruct z1; [rewrite Hz1 in * by auto; rewrite skipn_length in *; lia|].
        destruct z2; [rewrite Hz2 in * by auto; rewrite skipn_length in *; lia|]. reflexivity. }
      eapply sr_semi; eauto.
      * replace (b + kb + j + 1) with (b + (kb + j + 1)) by lia. apply blanks_extent; auto.
      * eapply blanks_terminated; eauto.
    + apply Main. rewrite D1. apply yes_alt1, yes_chr.
Qed.

(** ** Client commands *)
Lemma line_end_yes : forall s k, line_end_len s = Some k ->
  exists z, yes (PRule Qline_end) s k z /\
    (z = true <-> s = [] \/ (s <> [] /\ beq (nth (k - 1) s SPC) NL = false)) /\
    (z = true -> k = List.length s).
Proof.
  intros s k H. unfold line_end_len in H.
  destruct (starts_line_comment s) eqn:Hl.
  - injection H as <-. exists (negb (has_nl s)).
    assert (Hlast : beq (nth (tok s - 1) s SPC) NL = has_nl s).
    { destruct s as [|c [|d r]]; try discriminate. cbn in Hl.
      apply andb_true_iff in Hl. destruct Hl as [H1 H2]. apply beq_true in H1, H2. subst.
      change (has_nl ("/" :: "/" :: r)%char) with (has_nl r).
      change (tok ("/" :: "/" :: r)%char) with (S (S (through_nl r))).
      replace (S (S (through_nl r)) - 1) with (S (through_nl r)) by lia.
      cbn [nth].
      assert (forall x, beq x NL = false -> beq (nth (through_nl r) (x :: r) SPC) NL = has_nl r) as G.
      { induction r as [|c r IH]; intros x Hx; [cbn; exact Hx|].
        cbn [through_nl has_nl]. destruct (beq c NL) eqn:Hc; [exact Hc|].
        cbn [nth orb]. apply IH. exact Hc. }
      apply (G "/"%char). reflexivity. }
    split; [|split].
    + apply yes_rule. cbn [QG]. apply yes_alt1, line_comment_yes. auto.
    + rewrite Hlast. destruct s; [discriminate|]. destruct (has_nl (a :: s)); split; intros E; auto.
      * discriminate.
      * destruct E as [E|[_ E]]; discriminate.
      * right. split; [discriminate|auto].
    + intros E. apply line_comment_eof; auto. destruct (has_nl s); auto; discriminate.
  - destruct s as [|c r].
    + injection H as <-. exists true. split; [|split; [split; auto|reflexivity]].
      apply yes_rule. cbn [QG]. apply yes_alt2; [apply line_comment_no; auto|].
      apply yes_alt2; [apply eol_no; reflexivity|apply eof_yes].
    + exists false. assert (starts_eol (c :: r) = true) as He.
      { destruct (beq c NL) eqn:Hc; [cbn; rewrite Hc; reflexivity|].
        destruct (starts_eol (c :: r)); [auto|discriminate]. }
      split; [|split; [|discriminate]].
      * apply yes_rule. cbn [QG]. apply yes_alt2; [apply line_comment_no; auto|].
        apply yes_alt1. destruct (eol_yes _ He) as [k' [_ [E Y]]].
        unfold eol_len in E. rewrite He in *. rewrite H in E. injection E as <-. exact Y.
      * split; [discriminate|]. intros [E|[_ E]]; [discriminate|]. exfalso.
        destruct (starts_eol_cases _ He) as [[r' X]|[r' X]]; injection X as -> ->; cbn in H;
        injection H as <-; discriminate.
Qed.
Lemma line_end_no : forall s, line_end_len s = None -> no (PRule Qline_end) s.
Proof.
  intros s H. unfold line_end_len in H. destruct (starts_line_comment s) eqn:Hl; [discriminate|].
  destruct s as [|c r]; [discriminate|].
  destruct (beq c NL) eqn:Hc; [discriminate|].
  destruct (starts_eol (c :: r)) eqn:He; [discriminate|].
  apply no_rule. cbn [QG]. apply no_alt; [apply line_comment_no; auto|].
  apply no_alt; [apply eol_no; auto|apply eof_no].
Qed.
Lemma line_end_le : forall s k, line_end_len s = Some k -> k <= List.length s.
Proof. intros s k H. destruct (line_end_yes s k H) as [z [Y _]]. exact (yes_length _ _ _ _ Y). Qed.

Lemma line_end_pos : forall c r k, line_end_len (c :: r) = Some k -> 1 <= k.
Proof.
  intros c r k H. unfold line_end_len in H. destruct (starts_line_comment (c :: r)).
  - injection H as <-. apply tok_pos.
  - destruct (beq c NL); [injection H as <-; lia|]. destruct (starts_eol (c :: r)); [injection H as <-; lia|discriminate].
Qed.

Lemma hblanks_extent : forall cont s j, hblanks s j -> forall k t,
  command_extent cont (skipn j s) k t -> command_extent cont s (j + k) t.
Proof.
  induction 1 as [s|c r j Hc _ IH|s j Hc _ IH]; intros k t Hk.
  - exact Hk.
  - change (S j + k) with (1 + (j + k)). rewrite <- (tok_hspace c r Hc). apply ce_blank.
    + rewrite Hc. reflexivity.
    + rewrite (tok_hspace c r Hc). apply IH. exact Hk.
  - rewrite <- Nat.add_assoc. apply ce_blank.
    + rewrite Hc. apply orb_true_r.
    + apply IH. rewrite <- skipn_add. exact Hk.
Qed.

Lemma extent_nil : forall cont k t, command_extent cont [] k t -> k = 0 /\ t = false.
Proof. intros cont k t H. inversion H; subst; auto; try contradiction; discriminate. Qed.

Lemma continue_extent : forall r k j, hblanks r k -> line_end_len (skipn k r) = Some j ->
  forall n t, command_extent false (skipn (k + j) r) n t -> command_extent true r (k + (j + n)) t.
Proof.
  intros r k j Hb Hl n t H. apply hblanks_extent; auto. rewrite skipn_add in H.
  destruct (skipn k r) as [|c r'] eqn:E.
  - injection Hl as <-. cbn in H. destruct (extent_nil _ _ _ H) as [-> ->]. apply ce_eof.
  - apply ce_continue; auto. discriminate.
Qed.

Lemma line_end_hspace : forall c r, starts_hspace (c :: r) = true -> line_end_len (c :: r) = None.
Proof.
  intros c r H. cbn in H. apply orb_true_iff in H. unfold line_end_len.
  destruct H as [H|H]; apply beq_true in H; subst; destruct r; reflexivity.
Qed.
Lemma line_end_block : forall s, starts_block_comment s = true -> line_end_len s = None.
Proof.
  intros s H. destruct s as [|c [|d r]]; try discriminate. cbn in H.
  apply andb_true_iff in H. destruct H as [H _]. apply andb_true_iff in H.
  destruct H as [H1 H2]. apply beq_true in H1, H2. subst. reflexivity.
Qed.

Lemma flag_irrelevant : forall r k, hblanks r k -> line_end_len (skipn k r) = None ->
  forall n t, command_extent false r n t -> command_extent true r n t.
Proof.
  induction 1 as [s H1 H2|c r j Hc _ IH|s j Hc _ IH]; intros Hl n t H.
  - cbn [skipn] in Hl. inversion H; subst; try congruence.
    + apply ce_eof.
    + apply ce_semi.
    + rewrite H1, H2 in *. discriminate.
    + apply ce_escaped. auto.
    + apply ce_tok; auto.
  - inversion H; subst; try discriminate.
    + rewrite line_end_hspace in *; auto; discriminate.
    + apply ce_blank; auto. rewrite (tok_hspace c r Hc) in *. auto.
    + rewrite Hc in *. discriminate.
  - destruct (comment_hd s) as [d [r0 E0]]; [auto|]. subst s.
    inversion H; subst; try discriminate.
    + rewrite line_end_block in *; auto; discriminate.
    + apply ce_blank; auto. apply IH; auto. rewrite <- skipn_add. exact Hl.
    + rewrite Hc, orb_true_r in *. discriminate.
Qed.

Lemma hblanks_text : forall s j, hblanks s j -> forall k,
  command_text true (skipn j s) k -> command_text true s (j + k).
Proof.
  induction 1 as [s|c r j Hc _ IH|s j Hc _ IH]; intros k Hk.
  - exact Hk.
  - change (S j + k) with (1 + (j + k)). rewrite <- (tok_hspace c r Hc). apply ct_blank.
    + rewrite Hc. reflexivity.
    + auto.
    + rewrite (tok_hspace c r Hc). apply IH. exact Hk.
  - rewrite <- Nat.add_assoc. apply ct_blank.
    + rewrite Hc. apply orb_true_r.
    + auto.
    + apply IH. rewrite <- skipn_add. exact Hk.
Qed.

Lemma line_end_after_nil : line_end_after_blanks [].
Proof. exists 0, 0. split; [apply hb_stop; reflexivity|reflexivity]. Qed.

Lemma text_nil : forall cont k, command_text cont [] k -> k = 0.
Proof. intros cont k H. inversion H; subst; auto; try contradiction; discriminate. Qed.

Lemma continue_text : forall r k j, hblanks r k -> line_end_len (skipn k r) = Some j ->
  forall n, command_text false (skipn (k + j) r) n -> command_text true r (k + (j + n)).
Proof.
  intros r k j Hb Hl n H. apply hblanks_text; auto. rewrite skipn_add in H.
  destruct (skipn k r) as [|c r'] eqn:E.
  - injection Hl as <-. cbn in H. rewrite (text_nil _ _ H). apply ct_eof.
  - apply ct_continue; auto. discriminate.
Qed.

Lemma flag_irrelevant_text : forall r k, hblanks r k -> line_end_len (skipn k r) = None ->
  forall n, command_text false r n -> command_text true r n.
Proof.
  induction 1 as [s H1 H2|c r j Hc Hb IH|s j Hc Hb IH]; intros Hl n H.
  - cbn [skipn] in Hl. inversion H; subst; try congruence.
    + apply ct_eof.
    + apply ct_semi.
    + exfalso. match goal with X : line_end_after_blanks s |- _ => destruct X as [j [t [A1 A2]]] end.
      assert (j = 0) as -> by (eapply hblanks_det; [exact A1|apply hb_stop; auto]).
      cbn in A2. congruence.
    + rewrite H1, H2 in *. discriminate.
    + apply ct_escaped. auto.
    + apply ct_tok; auto.
  - inversion H; subst; try discriminate.
    + exfalso. match goal with X : line_end_after_blanks _ |- _ => destruct X as [j' [t [A1 A2]]] end.
      assert (j' = S j) as -> by (eapply hblanks_det; [exact A1|apply hb_space; auto]).
      cbn [skipn] in *. congruence.
    + apply ct_blank; auto. rewrite (tok_hspace c r Hc) in *. auto.
    + rewrite Hc in *. discriminate.
  - destruct (comment_hd s) as [d [r0 E0]]; [auto|]. subst s.
    inversion H; subst; try discriminate.
    + congruence.
    + apply ct_blank; auto. apply IH; auto. rewrite <- skipn_add. exact Hl.
    + rewrite Hc, orb_true_r in *. discriminate.
Qed.

Definition cbody_exp : qexp :=
  rl Qescaped_char ∥ PStr [BSL; SEMI] ∥ chr BSL ⋅ rl Qhsp ⋅ rl Qline_end
  ∥ rl Qblock_comment ∥ rl Qunclosed_block_comment ∥ rl Qquoted
  ∥ PNot (chr SEMI ∥ rl Qhsp ⋅ rl Qline_end) ⋅ PDot.

(** how a command body ends *)
Definition command_tail (s : bytes) (kb j t : nat) (term : bool) : Prop :=
  hblanks (skipn kb s) j /\
  ((exists r, skipn (kb + j) s = SEMI :: r /\ t = 1 /\ term = true) \/
   (line_end_len (skipn (kb + j) s) = Some t /\
    (term = true <-> skipn (kb + j) s <> [] /\ beq (nth (t - 1) (skipn (kb + j) s) SPC) NL = true))).

Lemma no_hblank : forall s, starts_hspace s = false -> starts_block_comment s = false -> hblanks s 0.
Proof. intros. apply hb_stop; auto. Qed.

Lemma command_body_yes : forall n s, List.length s <= n ->
  exists kb z j t term,
    yes (PStar cbody_exp) s kb z /\ (z = true -> kb = List.length s) /\
    command_tail s kb j t term /\ command_extent false s (kb + j + t) term /\
    command_text false s kb.
Proof.
  induction n as [|n IH]; intros s Hn.
  { destruct s; [|cbn in Hn; lia]. exists 0, false, 0, 0, false. split; [|split; [discriminate|split]].
    - destruct (line_end_yes [] 0 eq_refl) as [z [Y _]].
      apply yes_star_stop. unfold cbody_exp.
      apply no_alt; [apply escaped_no; reflexivity|]. apply no_alt; [apply no_str; intros; discriminate|].
      apply no_alt; [apply no_seq1, no_chr; discriminate|].
      apply no_alt; [apply block_comment_no; reflexivity|].
      apply no_alt; [apply unclosed_no; reflexivity|]. apply no_alt; [apply quoted_no; reflexivity|].
      apply no_seq1. eapply no_not. apply yes_alt2; [apply no_chr; discriminate|].
      eapply yes_seq; [apply hsp_yes, no_hblank; reflexivity|]. exact Y.
    - split; [apply no_hblank; reflexivity|]. right. split; [reflexivity|].
      split; [discriminate|]. intros [E _]. contradiction.
    - split; [apply ce_eof|apply ct_eof]. }
  destruct s as [|c r]; [apply IH; cbn; lia|].
  (* stepping over an item of [k1] bytes *)
  assert (Hstep : forall k1 z1, 1 <= k1 ->
    yes cbody_exp (c :: r) k1 z1 -> (z1 = true -> k1 = List.length (c :: r)) ->
    (forall m t, command_extent false (skipn k1 (c :: r)) m t -> command_extent false (c :: r) (k1 + m) t) ->
    (forall m, command_text false (skipn k1 (c :: r)) m -> command_text false (c :: r) (k1 + m)) ->
    exists kb z j t term,
      yes (PStar cbody_exp) (c :: r) kb z /\ (z = true -> kb = List.length (c :: r)) /\
      command_tail (c :: r) kb j t term /\ command_extent false (c :: r) (kb + j + t) term /\
      command_text false (c :: r) kb).
  { intros k1 z1 Hk1 Y Hz Hext Htxt. pose proof (yes_length _ _ _ _ Y) as Hle.
    pose proof (skipn_lt (c :: r) k1 Hk1 ltac:(discriminate)) as Hlt.
    destruct (IH (skipn k1 (c :: r))) as [kb [z [j [t [term [Y1 [Hz1 [Hb [Hd Hdt]]]]]]]]]; [cbn [List.length] in *; lia|].
    exists (k1 + kb), (z1 || z), j, t, term. split; [|split; [|split]].
    - apply yes_star_step; auto.
    - intros E. apply orb_true_iff in E. pose proof (yes_length _ _ _ _ Y1) as L.
      rewrite skipn_length in *. destruct E as [E|E]; [apply Hz in E|apply Hz1 in E]; lia.
    - unfold command_tail in *. rewrite <- !Nat.add_assoc, !skipn_add in *. exact Hb.
    - replace (k1 + kb + j + t) with (k1 + (kb + j + t)) by lia. split; [apply Hext; exact Hd|apply Htxt; exact Hdt]. }
  destruct (starts_escape (c :: r)) eqn:H1.
  { destruct r as [|d r]; [discriminate|]. cbn [starts_escape] in H1.
    apply andb_true_iff in H1. destruct H1 as [E1 E2]. apply beq_true in E1. subst c.
    apply (Hstep 2 false); [lia| |discriminate| |].
    - apply yes_alt1, escaped_yes. auto.
    - intros m t H. assert (tok (BSL :: d :: r) = 2) as Ht by (cbn [tok]; rewrite E2; reflexivity).
      rewrite <- Ht. apply ce_tok; [discriminate|reflexivity|reflexivity| |].
      + destruct (beq d SEMI) eqn:Ed; [|cbn [starts_escaped_semi]; rewrite Ed; reflexivity].
        apply beq_true in Ed. subst. discriminate.
      + assert (lone_backslash (BSL :: d :: r) = false) as ->
          by (cbn [lone_backslash]; rewrite E2; reflexivity).
        rewrite Ht. exact H.
    - intros m H. assert (tok (BSL :: d :: r) = 2) as Ht by (cbn [tok]; rewrite E2; reflexivity).
      rewrite <- Ht. apply ct_tok; [discriminate|reflexivity|reflexivity| |].
      + destruct (beq d SEMI) eqn:Ed; [|cbn [starts_escaped_semi]; rewrite Ed; reflexivity].
        apply beq_true in Ed. subst. discriminate.
      + assert (lone_backslash (BSL :: d :: r) = false) as ->
          by (cbn [lone_backslash]; rewrite E2; reflexivity).
        rewrite Ht. exact H. }
  destruct (starts_escaped_semi (c :: r)) eqn:H2.
  { destruct r as [|d r]; [discriminate|]. cbn [starts_escaped_semi] in H2.
    apply andb_true_iff in H2. destruct H2 as [E1 E2]. apply beq_true in E1, E2. subst.
    apply (Hstep 2 false); [lia| |discriminate| |].
    - apply yes_alt2; [apply escaped_no; auto|]. apply yes_alt1. apply (yes_str [BSL; SEMI] r).
    - intros m t H. apply ce_escaped. exact H.
    - intros m H. apply ct_escaped. exact H. }
  assert (N2 : no (PStr [BSL; SEMI]) (c :: r)).
  { apply no_str. intros r' E. cbn in E. injection E as -> ->. discriminate. }
  (* facts shared by the remaining cases *)
  assert (Tok : starts_hspace (c :: r) || starts_block_comment (c :: r) = false ->
     line_end_len (c :: r) = None -> c <> SEMI -> lone_backslash (c :: r) = false ->
     forall m t, command_extent false (skipn (tok (c :: r)) (c :: r)) m t ->
       command_extent false (c :: r) (tok (c :: r) + m) t).
  { intros A1 A2 A3 A4 m t H. apply ce_tok; auto. rewrite A4. exact H. }
  assert (TokT : starts_hspace (c :: r) || starts_block_comment (c :: r) = false ->
     line_end_len (c :: r) = None -> c <> SEMI -> lone_backslash (c :: r) = false ->
     forall m, command_text false (skipn (tok (c :: r)) (c :: r)) m ->
       command_text false (c :: r) (tok (c :: r) + m)).
  { intros A1 A2 A3 A4 m H. apply ct_tok; auto. rewrite A4. exact H. }
  destruct (beq c BSL) eqn:HB.
  - apply beq_true in HB. subst c.
    destruct (hblanks_total _ r (le_n _)) as [k Hk]. pose proof (hsp_yes r k Hk) as Yk.
    pose proof (yes_length _ _ _ _ Yk) as Lk.
    assert (Ht : tok (BSL :: r) = 1).
    { cbn [tok]. destruct r as [|d r]; [reflexivity|]. cbn [starts_escape] in H1.
      cbn in H1 |- *. rewrite H1. reflexivity. }
    assert (Hlb : lone_backslash (BSL :: r) = true).
    { cbn [lone_backslash]. destruct r as [|d r]; [reflexivity|]. cbn [starts_escape starts_escaped_semi] in *.
      change (beq BSL BSL) with true in *. cbn [andb] in *. rewrite H1, H2. reflexivity. }
    destruct (line_end_len (skipn k r)) as [j|] eqn:Hl.
    + destruct (line_end_yes _ _ Hl) as [z [Y [_ Hz]]]. pose proof (yes_length _ _ _ _ Y) as Lj.
      rewrite skipn_length in *.
      apply (Hstep (1 + (k + j)) z); [lia| |intros E; apply Hz in E; cbn; lia| |].
      * apply yes_alt2; [apply escaped_no; auto|]. apply yes_alt2; [exact N2|]. apply yes_alt1.
        change z with (false || (false || z)).
        apply yes_seq; [apply yes_chr|]. cbn [skipn]. apply yes_seq; [exact Yk|exact Y].
      * intros m t H. cbn [Nat.add skipn] in H.
        replace (1 + (k + j) + m) with (tok (BSL :: r) + (k + (j + m))) by lia.
        apply ce_tok; try discriminate; auto.
        -- unfold line_end_len. cbn. destruct r; reflexivity.
        -- cbn. destruct r; reflexivity.
        -- rewrite Hlb, Ht. cbn [skipn]. apply continue_extent; auto.
      * intros m H. cbn [Nat.add skipn] in H.
        replace (1 + (k + j) + m) with (tok (BSL :: r) + (k + (j + m))) by lia.
        apply ct_tok; try discriminate; auto.
        -- unfold line_end_len. cbn. destruct r; reflexivity.
        -- cbn. destruct r; reflexivity.
        -- rewrite Hlb, Ht. cbn [skipn]. apply continue_text; auto.
    + apply (Hstep 1 false); [lia| |discriminate| |].
      * apply yes_alt2; [apply escaped_no; auto|]. apply yes_alt2; [exact N2|].
        apply yes_alt2.
        { eapply no_seq2; [apply yes_chr|]. cbn [skipn]. eapply no_seq2; [exact Yk|].
          apply line_end_no. exact Hl. }
        apply yes_alt2; [apply block_comment_no; destruct r; reflexivity|].
        apply yes_alt2; [apply unclosed_no; destruct r; reflexivity|].
        apply yes_alt2; [apply quoted_no; reflexivity|].
        change 1 with (0 + 1). change false with (false || false).
        apply yes_seq; [|apply yes_dot]. apply yes_not, no_alt; [apply no_chr; discriminate|].
        eapply no_seq2; [apply hsp_yes, no_hblank; destruct r; reflexivity|].
        apply line_end_no. cbn. destruct r; reflexivity.
      * intros m t H. rewrite <- Ht. apply ce_tok; try discriminate; auto.
        -- unfold line_end_len. cbn. destruct r; reflexivity.
        -- cbn. destruct r; reflexivity.
        -- rewrite Hlb, Ht. cbn [skipn] in *. eapply flag_irrelevant; eauto.
      * intros m H. rewrite <- Ht. apply ct_tok; try discriminate; auto.
        -- unfold line_end_len. cbn. destruct r; reflexivity.
        -- cbn. destruct r; reflexivity.
        -- rewrite Hlb, Ht. cbn [skipn] in *. eapply flag_irrelevant_text; eauto.
  - assert (N3 : forall e, no (chr BSL ⋅ e) (c :: r)).
    { intros e. apply no_seq1, no_chr. apply beq_false in HB. cbn. congruence. }
    assert (Hlb : lone_backslash (c :: r) = false) by (cbn [lone_backslash]; rewrite HB; reflexivity).
    destruct (starts_block_comment (c :: r)) eqn:H3.
    { apply (Hstep (tok (c :: r)) false); [apply tok_pos| |discriminate| |].
      - apply yes_alt2; [apply escaped_no; auto|]. apply yes_alt2; [exact N2|].
        apply yes_alt2; [apply N3|]. apply yes_alt1. apply block_comment_yes. auto.
      - intros m t H. apply ce_blank; [rewrite H3; apply orb_true_r|exact H].
      - intros m H. apply ct_blank; [rewrite H3; apply orb_true_r|auto|exact H]. }
    destruct (starts_unclosed_comment (c :: r)) eqn:H4.
    { destruct (unclosed_yes _ H4) as [Y1 Hl]. apply (Hstep (tok (c :: r)) true); [apply tok_pos| |auto| |].
      - apply yes_alt2; [apply escaped_no; auto|]. apply yes_alt2; [exact N2|].
        apply yes_alt2; [apply N3|]. apply yes_alt2; [apply block_comment_no; auto|].
        apply yes_alt1. exact Y1.
      - destruct (comment_hd (c :: r)) as [d [r' E]]; [auto|]. injection E as -> ->.
        apply Tok; auto; try discriminate.
        cbn in H4. destruct (beq d "*") eqn:Hd; [|discriminate]. apply beq_true in Hd. subst d. reflexivity.
      - destruct (comment_hd (c :: r)) as [d [r' E]]; [auto|]. injection E as -> ->.
        apply TokT; auto; try discriminate.
        cbn in H4. destruct (beq d "*") eqn:Hd; [|discriminate]. apply beq_true in Hd. subst d. reflexivity. }
    destruct (starts_quote (c :: r)) eqn:H5.
    { destruct (quoted_yes _ H5) as [z1 [Y1 Hz1]]. apply (Hstep (tok (c :: r)) z1); [apply tok_pos| |auto| |].
      - apply yes_alt2; [apply escaped_no; auto|]. apply yes_alt2; [exact N2|].
        apply yes_alt2; [apply N3|]. apply yes_alt2; [apply block_comment_no; auto|].
        apply yes_alt2; [apply unclosed_no; auto|]. apply yes_alt1. exact Y1.
      - cbn in H5. unfold is_quote in H5. apply orb_true_iff in H5.
        apply Tok; auto.
        + destruct H5 as [E|E]; apply beq_true in E; subst; cbn; destruct r; reflexivity.
        + destruct H5 as [E|E]; apply beq_true in E; subst; cbn; destruct r; reflexivity.
        + destruct H5 as [E|E]; apply beq_true in E; subst; discriminate.
      - cbn in H5. unfold is_quote in H5. apply orb_true_iff in H5.
        apply TokT; auto.
        + destruct H5 as [E|E]; apply beq_true in E; subst; cbn; destruct r; reflexivity.
        + destruct H5 as [E|E]; apply beq_true in E; subst; cbn; destruct r; reflexivity.
        + destruct H5 as [E|E]; apply beq_true in E; subst; discriminate. }
    destruct (hblanks_total _ (c :: r) (le_n _)) as [j Hj].
    pose proof (hsp_yes _ _ Hj) as Yj.
    destruct (beq c SEMI) eqn:H6.
    + (* stop at a semicolon *)
      apply beq_true in H6. subst c. exists 0, false, 0, 1, true.
      split; [|split; [discriminate|split]].
      * apply yes_star_stop. unfold cbody_exp.
        apply no_alt; [apply escaped_no; auto|]. apply no_alt; [exact N2|].
        apply no_alt; [apply N3|]. apply no_alt; [apply block_comment_no; auto|].
        apply no_alt; [apply unclosed_no; auto|]. apply no_alt; [apply quoted_no; auto|].
        apply no_seq1. eapply no_not. apply yes_alt1. apply yes_chr.
      * split; [apply no_hblank; auto|]. left. exists r. auto.
      * split; [apply ce_semi|apply ct_semi].
    + destruct (line_end_len (skipn j (c :: r))) as [t|] eqn:Hl.
      * (* stop at the end of the line *)
        destruct (line_end_yes _ _ Hl) as [z [Y [Hzt Hz]]].
        exists 0, false, j, t, (negb z). split; [|split; [discriminate|split; [|split]]].
        -- apply yes_star_stop. unfold cbody_exp.
           apply no_alt; [apply escaped_no; auto|]. apply no_alt; [exact N2|].
           apply no_alt; [apply N3|]. apply no_alt; [apply block_comment_no; auto|].
           apply no_alt; [apply unclosed_no; auto|]. apply no_alt; [apply quoted_no; auto|].
           apply no_seq1. eapply no_not. apply yes_alt2.
           { apply no_chr. apply beq_false in H6. cbn. congruence. }
           eapply yes_seq; [exact Yj|exact Y].
        -- split; [exact Hj|]. right. cbn [Nat.add]. split; [exact Hl|].
           destruct z; cbn [negb].
           ++ split; [discriminate|]. intros [E1 E2]. destruct (proj1 Hzt eq_refl) as [E|[_ E]]; congruence.
           ++ split; [intros _|auto].
              destruct (skipn j (c :: r)) as [|x y] eqn:E.
              ** assert (false = true) by (apply Hzt; auto). discriminate.
              ** split; [discriminate|]. destruct (beq (nth (t - 1) (x :: y) SPC) NL) eqn:E'; [auto|].
                 assert (false = true) by (apply Hzt; right; split; [discriminate|auto]). discriminate.
        -- cbn [Nat.add]. apply hblanks_extent; auto.
           destruct (skipn j (c :: r)) as [|x y] eqn:E.
           ++ injection Hl as <-. assert (z = true) as -> by (apply Hzt; auto). apply ce_eof.
           ++ replace (negb z) with (beq (nth (t - 1) (x :: y) SPC) NL); [apply ce_line; [discriminate|auto]|].
              destruct z; cbn [negb].
              ** destruct (proj1 Hzt eq_refl) as [E'|[_ E']]; [discriminate|auto].
              ** destruct (beq (nth (t - 1) (x :: y) SPC) NL) eqn:E'; [auto|].
                 assert (false = true) by (apply Hzt; right; split; [discriminate|auto]). discriminate.
        -- apply ct_end; auto. exists j, t. auto.
      * (* an ordinary byte *)
        assert (Hle0 : line_end_len (c :: r) = None).
        { destruct (starts_hspace (c :: r)) eqn:Hh; [apply line_end_hspace; auto|].
          inversion Hj; subst; try congruence. exact Hl. }
        assert (Hlc : starts_line_comment (c :: r) = false).
        { unfold line_end_len in Hle0. destruct (starts_line_comment (c :: r)); [discriminate|auto]. }
        pose proof (tok_single c r H5 Hlc H3 H4 H1) as Ht.
        apply (Hstep 1 false); [lia| |discriminate| |].
        -- apply yes_alt2; [apply escaped_no; auto|]. apply yes_alt2; [exact N2|].
           apply yes_alt2; [apply N3|]. apply yes_alt2; [apply block_comment_no; auto|].
           apply yes_alt2; [apply unclosed_no; auto|]. apply yes_alt2; [apply quoted_no; auto|].
           change 1 with (0 + 1). change false with (false || false).
           apply yes_seq; [|apply yes_dot]. apply yes_not, no_alt.
           { apply no_chr. apply beq_false in H6. cbn. congruence. }
           eapply no_seq2; [exact Yj|]. apply line_end_no. exact Hl.
        -- rewrite <- Ht. destruct (starts_hspace (c :: r)) eqn:Hh.
           ++ intros m t H. apply ce_blank; [rewrite Hh; reflexivity|exact H].
           ++ apply Tok; auto; apply beq_false in H6; auto.
        -- rewrite <- Ht. destruct (starts_hspace (c :: r)) eqn:Hh.
           ++ intros m H. apply ct_blank; [rewrite Hh; reflexivity| |exact H].
              right. right. intros [j' [t' [A1 A2]]].
              rewrite <- (hblanks_det _ _ Hj _ A1) in A2. congruence.
           ++ apply TokT; auto; apply beq_false in H6; auto.
Qed.

(** the specification of a command round *)
Inductive command_round (s : bytes) : nat -> nat -> nat -> bool -> Prop :=
| cr : forall b r kb j t term, blanks s b -> skipn b s = COLON :: r ->
    kb <= List.length r -> command_text false r kb -> command_tail r kb j t term ->
    command_extent false r (kb + j + t) term ->
    command_round s b (b + 1 + kb) (b + 1 + (kb + j + t)) (negb term).

Definition starts_colon (s : bytes) : bool :=
  match s with c :: _ => beq c COLON | [] => false end.

Lemma command_round_ok : forall s b, blanks s b -> starts_colon (skipn b s) = true ->
  exists e n eof, command_round s b e n eof /\ round_ok Qclient_command s false b e n eof.
Proof.
  intros s b Hb Hc.
  destruct (skipn b s) as [|c r] eqn:Hr; [discriminate|]. cbn in Hc. apply beq_true in Hc. subst c.
  destruct (sp_yes s b Hb) as [z0 [Y0 Hz0]]. pose proof (yes_length _ _ _ _ Y0) as L0.
  destruct (command_body_yes _ r (le_n _)) as [kb [z1 [j [t [term [Y1 [Hz1 [Htail [Hext Htx]]]]]]]]].
  pose proof (yes_length _ _ _ _ Y1) as L1.
  assert (Hlen : List.length s = b + 1 + List.length r).
  { assert (List.length (skipn b s) = S (List.length r)) by (rewrite Hr; reflexivity).
    rewrite skipn_length in *. lia. }
  exists (b + 1 + kb), (b + 1 + (kb + j + t)), (negb term). split; [econstructor; eauto|].
  destruct Htail as [Hj Htl]. pose proof (hsp_yes _ _ Hj) as Y2.
  pose proof (yes_length _ _ _ _ Y2) as L2. rewrite skipn_length in L2.
  rewrite skipn_add in Htl.
  assert (exists z3, yes (chr SEMI ∥ rl Qline_end) (skipn j (skipn kb r)) t z3 /\ z3 = negb term /\ (kb = List.length r -> z3 = true)) as [z3 [Y3 [Hz3 Hkb]]].
  { destruct Htl as [[r' [E [-> ->]]]|[E Ht]].
    - exists false. rewrite E. split; [apply yes_alt1, yes_chr|]. split; [reflexivity|].
      intros X. assert (List.length (skipn j (skipn kb r)) > 0) by (rewrite E; cbn; lia).
      rewrite !skipn_length in *. lia.
    - destruct (line_end_yes _ _ E) as [z [Y [Hz _]]]. exists z. split; [|split].
      + apply yes_alt2; [|exact Y]. apply no_chr.
        destruct (skipn j (skipn kb r)) as [|x y]; [discriminate|]. cbn. intros X. injection X as ->.
        destruct y; discriminate.
      + destruct z, term; auto; exfalso.
        * destruct (proj1 Ht eq_refl) as [A1 A2]. destruct (proj1 Hz eq_refl) as [A|[_ A]]; congruence.
        * assert (false = true); [|discriminate]. apply Hz.
          destruct (skipn j (skipn kb r)) as [|x y] eqn:F; [auto|]. right. split; [discriminate|].
          destruct (beq (nth (t - 1) (x :: y) SPC) NL) eqn:F'; [|auto].
          assert (false = true); [|discriminate]. apply Ht. split; [discriminate|auto].
      + intros X. apply Hz. left. rewrite X, skipn_all, skipn_nil. reflexivity. }
  assert (Z : z0 || z1 || z3 = negb term).
  { rewrite <- Hz3. destruct z0; [rewrite Hz0 in * by auto; lia|].
    destruct z1; [|reflexivity]. cbn. symmetry. apply Hkb. auto. }
  intros b0 e0 l. destruct Y0 as [_ Y0]. destruct Y1 as [_ Y1].
  destruct Y2 as [_ Y2]. destruct Y3 as [_ Y3].
  destruct (Y0 s 0 [] b0 e0 l eq_refl) as [l0 [t0 [E0 [F0 Z0]]]].
  assert (S1 : skipn (S b) s = r) by (replace (S b) with (b + 1) by lia; rewrite skipn_add, Hr; reflexivity).
  destruct (Y1 s (S b) t0 b e0 l0 S1) as [l1 [t1 [E1 [F1 Z1]]]].
  destruct (Y2 s (S b + kb) (t1 ++ t0) b (S b + kb) l1) as [l2 [t2 [E2 [F2 Z2]]]].
  { rewrite skipn_add, S1. reflexivity. }
  destruct (Y3 s (S b + kb + j) (t2 ++ t1 ++ t0) b (S b + kb) l2) as [l3 [t3 [E3 [F3 Z3]]]].
  { rewrite !skipn_add, S1. reflexivity. }
  exists l3, (t3 ++ t2 ++ t1 ++ t0), (b + 1 + (kb + j + t)). split; [|split].
  - apply ev_rule_ok. cbn [QG]. rewrite app_nil_r in E0.
    eapply ev_seq_ok; [exact E0|]. eapply ev_seq_ok; [apply ev_begin|].
    eapply ev_seq_ok. { apply ev_char_ok. cbn [pos Nat.add]. rewrite (skipn_get _ _ _ Hr). reflexivity. }
    unfold advance. cbn [pos thunks user Nat.add].
    eapply ev_seq_ok; [apply ev_rule_ok; exact E1|]. eapply ev_seq_ok; [apply ev_end|].
    eapply ev_seq_ok; [exact E2|]. eapply ev_seq_ok; [exact E3|].
    replace (b + 1 + kb) with (S b + kb) by lia.
    replace (b + 1 + (kb + j + t)) with (S b + kb + j + t) by lia. apply ev_act.
  - rewrite !Forall_app. auto.
  - rewrite <- Z. assert (t2 = []) as ->.
    { destruct t2; [reflexivity|]. assert (false = true) by (apply Z2; discriminate). discriminate. }
    rewrite !orb_true_iff, Z0, Z1, Z3.
    destruct t0; destruct t1; destruct t3; cbn; split; intros H; try discriminate;
      try (intuition discriminate); try (intuition congruence).
Qed.

(** without a colon a client command does not match, and marks survive *)
Lemma command_round_no : forall s b, blanks s b -> starts_colon (skipn b s) = false ->
  forall b0 e0 l, exists p' th' b' l', qev s (PRule Qclient_command) (mkst 0 [] (mkqu b0 e0 l))
     (RFail (mkst p' th' (mkqu b' e0 l'))) /\ p' = 0 /\ th' = [].
Proof.
  intros s b Hb Hc b0 e0 l. destruct (sp_yes s b Hb) as [z0 [[_ Y0] _]].
  destruct (Y0 s 0 [] b0 e0 l eq_refl) as [l0 [t0 [E0 _]]].
  exists 0, [], b, l0. split; [|auto].
  apply (ev_rule_fail QG (get_of s) qprun Qclient_command (mkst 0 [] (mkqu b0 e0 l)) (mkst (0 + b) (t0 ++ []) (mkqu b e0 l0))).
  cbn [QG]. eapply ev_seq_ok; [exact E0|]. eapply ev_seq_ok; [apply ev_begin|].
  apply ev_seq_fail. apply ev_char_fail. cbn [pos Nat.add].
  rewrite (skipn_get s (skipn b s) b eq_refl). destruct (skipn b s); [discriminate|].
  cbn in *. apply beq_false in Hc. congruence.
Qed.

(** ** A directive *)
Inductive directive_round (s : bytes) : bool -> nat -> nat -> nat -> bool -> Prop :=
| dr_command : forall b e n eof, blanks s b -> starts_colon (skipn b s) = true ->
    command_round s b e n eof -> directive_round s false b e n eof
| dr_statement : forall b e n eof, blanks s b -> starts_colon (skipn b s) = false ->
    statement_round s b e n eof -> directive_round s true b e n eof.

Lemma directive_round_ok : forall s, exists st b e n eof,
  directive_round s st b e n eof /\ round_ok Qdirective s st b e n eof.
Proof.
  intros s. destruct (blanks_total _ s (le_n _)) as [b Hb].
  destruct (starts_colon (skipn b s)) eqn:Hc.
  - destruct (command_round_ok s b Hb Hc) as [e [n [eof [H R]]]].
    exists false, b, e, n, eof. split; [apply dr_command; auto|].
    intros b0 e0 l. destruct (R b0 e0 l) as [l' [ts [m [E X]]]]. exists l', ts, m.
    split; [|exact X]. apply ev_rule_ok. cbn [QG]. apply ev_alt_ok. exact E.
  - destruct (statement_round_ok s) as [b' [e [n [eof [H R]]]]].
    assert (Hb' : blanks s b') by (inversion H; auto).
    exists true, b', e, n, eof. split.
    + apply dr_statement; auto.
      assert (b = b') as <-; [|auto].
      destruct (sp_yes s b Hb) as [z0 [[_ Y0] _]]. destruct (sp_yes s b' Hb') as [z1 [[_ Y1] _]].
      destruct (Y0 s 0 [] 0 0 [] eq_refl) as [l0 [t0 [E0 _]]].
      destruct (Y1 s 0 [] 0 0 [] eq_refl) as [l1 [t1 [E1 _]]].
      pose proof (ev_det _ _ _ _ _ _ _ E0 E1) as E. injection E. auto.
    + intros b0 e0 l.
      destruct (command_round_no s b Hb Hc b0 e0 l) as [p' [th' [b1 [l1 [E1 [-> ->]]]]]].
      destruct (R b1 e0 l1) as [l' [ts [m [E X]]]]. exists l', ts, m.
      split; [|exact X]. apply ev_rule_ok. cbn [QG]. eapply ev_alt_fail; [exact E1|].
      exact E.
Qed.

(** ** The specification is functional *)
Lemma terminated_extent : forall s k, statement_extent s k ->
  statement_terminated s \/ (~ statement_terminated s /\ k = List.length s).
Proof.
  induction 1 as [|r|c r k Hc H IH].
  - right. split; [apply terminated_nonempty|reflexivity].
  - left. constructor.
  - destruct IH as [IH|[IH1 IH2]].
    + left. apply st_tok; auto.
    + right. split.
      * intros E. inversion E; subst; contradiction.
      * pose proof (tok_le (c :: r)). rewrite skipn_length in IH2. lia.
Qed.

Lemma statement_round_det : forall s b e n eof b' e' n' eof',
  statement_round s b e n eof -> statement_round s b' e' n' eof' ->
  b = b' /\ e = e' /\ n = n' /\ eof = eof'.
Proof.
  intros s b e n eof b' e' n' eof' H H'.
  inversion H; inversion H'; subst; try contradiction.
  - assert (b = b') by (eapply blanks_det; eauto). auto.
  - assert (b = b') as <- by (eapply blanks_det; eauto).
    assert (kb = kb0) as <- by (eapply text_det; eauto).
    assert (b + kb + j + 1 = b + kb + j0 + 1) by (eapply extent_det; eauto). auto.
Qed.

Lemma no_line_semi : forall r, line_end_len (SEMI :: r) = None.
Proof. intros [|d r]; reflexivity. Qed.
Lemma semi_not_hb : forall r, starts_hspace (SEMI :: r) || starts_block_comment (SEMI :: r) = false.
Proof. intros [|d r]; reflexivity. Qed.
Lemma esc_not_hb : forall r, starts_hspace (BSL :: r) || starts_block_comment (BSL :: r) = false.
Proof. intros [|d r]; reflexivity. Qed.
Lemma esc_not_line : forall r, line_end_len (BSL :: r) = None.
Proof. intros [|d r]; reflexivity. Qed.
Lemma hb_not_line : forall s, starts_hspace s || starts_block_comment s = true -> line_end_len s = None.
Proof.
  intros s H. apply orb_true_iff in H. destruct H as [H|H].
  - destruct s; [discriminate|]. apply line_end_hspace; auto.
  - apply line_end_block; auto.
Qed.
Lemma line_end_after_0 : forall s, starts_hspace s || starts_block_comment s = false ->
  line_end_after_blanks s -> line_end_len s <> None.
Proof.
  intros s H [j [t [A1 A2]]]. apply orb_false_iff in H. destruct H.
  assert (j = 0) as -> by (eapply hblanks_det; [exact A1|apply hb_stop; auto]).
  cbn in A2. congruence.
Qed.

Ltac killcmd :=
  match goal with
  | H : [] <> [] |- _ => exfalso; apply H; reflexivity
  | H : SEMI <> SEMI |- _ => exfalso; apply H; reflexivity
  | H : line_end_len (SEMI :: _) = Some _ |- _ => rewrite no_line_semi in H; discriminate
  | H : line_end_len (BSL :: _) = Some _ |- _ => rewrite esc_not_line in H; discriminate
  | H : starts_hspace (SEMI :: _) || _ = true |- _ => rewrite semi_not_hb in H; discriminate
  | H : starts_hspace (BSL :: _) || _ = true |- _ => rewrite esc_not_hb in H; discriminate
  | H : starts_hspace [] || _ = true |- _ => discriminate H
  | H1 : starts_hspace ?s || _ = true, H2 : line_end_len ?s = Some _ |- _ =>
      rewrite (hb_not_line s H1) in H2; discriminate
  | H : starts_escaped_semi (BSL :: SEMI :: _) = false |- _ => discriminate H
  | _ => congruence
  end.

Lemma command_extent_det : forall cont s k t, command_extent cont s k t ->
  forall k' t', command_extent cont s k' t' -> k = k' /\ t = t'.
Proof.
  induction 1; intros k' t' H'; inversion H'; subst; try (split; reflexivity); try (exfalso; killcmd).
  - assert (k = k') by congruence. subst. auto.
  - assert (k = k0) by congruence. subst.
    match goal with X : command_extent false (skipn k0 s) _ t' |- _ => destruct (IHcommand_extent _ _ X); subst; auto end.
  - match goal with X : command_extent cont (skipn (tok s) s) _ t' |- _ => destruct (IHcommand_extent _ _ X); subst; auto end.
  - match goal with X : command_extent false r _ t' |- _ => destruct (IHcommand_extent _ _ X); subst; auto end.
  - match goal with X : command_extent _ (skipn (tok (c :: r)) (c :: r)) _ t' |- _ => destruct (IHcommand_extent _ _ X); subst; auto end.
Qed.

Lemma command_text_det : forall cont s k, command_text cont s k ->
  forall k', command_text cont s k' -> k = k'.
Proof.
  induction 1; intros k' H'; inversion H'; subst; try reflexivity; try (exfalso; killcmd).
  - (* end vs blank *)
    exfalso. intuition congruence.
  - exfalso. eapply line_end_after_0; [apply esc_not_hb|eassumption|apply esc_not_line].
  - exfalso. eapply line_end_after_0; [|eassumption|]; eauto.
  - assert (k = k0) by congruence. subst. f_equal. auto.
  - exfalso. intuition congruence.
  - f_equal. auto.
  - exfalso. eapply line_end_after_0; [apply esc_not_hb|eassumption|apply esc_not_line].
  - f_equal. auto.
  - exfalso. eapply line_end_after_0; [|eassumption|]; eauto.
  - f_equal. auto.
Qed.

Lemma command_round_det : forall s b e n eof b' e' n' eof',
  command_round s b e n eof -> command_round s b' e' n' eof' ->
  b = b' /\ e = e' /\ n = n' /\ eof = eof'.
Proof.
  intros s b e n eof b' e' n' eof' H H'. inversion H; inversion H'; subst.
  assert (b = b') as <- by (eapply blanks_det; eauto).
  assert (r0 = r) as -> by congruence.
  assert (kb0 = kb) as -> by (eapply command_text_det; eauto).
  match goal with X : command_extent false r (kb + j + t) term, Y : command_extent false r (kb + j0 + t0) term0 |- _ =>
    destruct (command_extent_det _ _ _ _ X _ _ Y) as [E1 E2] end.
  subst. repeat split; auto; lia.
Qed.

Lemma directive_round_det : forall s st b e n eof st' b' e' n' eof',
  directive_round s st b e n eof -> directive_round s st' b' e' n' eof' ->
  st = st' /\ b = b' /\ e = e' /\ n = n' /\ eof = eof'.
Proof.
  intros. inversion H; inversion H0; subst;
  match goal with X : blanks s b, Y : blanks s b' |- _ => assert (b = b') as <- by (eapply blanks_det; eauto) end;
  try congruence; split; auto.
  - eapply command_round_det; eauto.
  - eapply statement_round_det; eauto.
Qed.
