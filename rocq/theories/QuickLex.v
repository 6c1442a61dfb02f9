(** * The quick grammar's rules compute the specification's token functions *)
From Verif Require Import Peg PegWf PegProofs PegEval QuickModel QuickSpec.

Lemma skipn_get : forall (inp s : bytes) p, skipn p inp = s ->
  get_of inp p = hd_error s.
Proof.
  unfold get_of. induction inp as [|c inp IH]; intros s p H.
  - rewrite skipn_nil in H. subst. destruct p; reflexivity.
  - destruct p; cbn in *; [subst; reflexivity|]. auto.
Qed.

Lemma skipn_add : forall (A : Type) (l : list A) a b, skipn (a + b) l = skipn b (skipn a l).
Proof.
  induction l as [|c l IH]; intros a b.
  - rewrite !skipn_nil. reflexivity.
  - destruct a; cbn; [reflexivity|apply IH].
Qed.

Notation qev inp := (ev QG (get_of inp) qprun).

Definition iseof (t : qact * nat) : Prop := fst t = AEof.

(** [yes e s k z]: on any input and position whose remaining bytes are [s],
    [e] succeeds consuming [k] bytes; it records only end-of-input thunks, and
    at least one iff [z]. *)
Definition yes (e : qexp) (s : bytes) (k : nat) (z : bool) : Prop :=
  k <= List.length s /\
  forall inp p th b e0 l, skipn p inp = s ->
  exists l' ts, qev inp e (mkst p th (mkqu b e0 l))
                  (ROk (mkst (p + k) (ts ++ th) (mkqu b e0 l')))
    /\ Forall iseof ts /\ (z = true <-> ts <> []).

Definition no (e : qexp) (s : bytes) : Prop :=
  forall inp p th b e0 l, skipn p inp = s ->
  exists p' th' l', qev inp e (mkst p th (mkqu b e0 l))
                  (RFail (mkst p' th' (mkqu b e0 l'))).

Lemma yes_0 : forall e s (H : forall inp p th b e0 l, skipn p inp = s ->
  exists l', qev inp e (mkst p th (mkqu b e0 l)) (ROk (mkst p th (mkqu b e0 l')))),
  yes e s 0 false.
Proof.
  intros e s H. split; [lia|]. intros inp p th b e0 l Hs.
  destruct (H inp p th b e0 l Hs) as [l' Hl]. exists l', []. rewrite Nat.add_0_r.
  split; [exact Hl|split; [constructor|split; [discriminate|intros X; contradiction]]].
Qed.

Lemma yes_dot : forall c s, yes PDot (c :: s) 1 false.
Proof.
  intros c s. split; [cbn; lia|]. intros inp p th b e0 l Hs. exists l, [].
  split; [|split; [auto|split; [discriminate|intros X; contradiction]]].
  replace (p + 1) with (S p) by lia.
  apply ev_dot_ok with (c := c). cbn. rewrite (skipn_get _ _ _ Hs). reflexivity.
Qed.
Lemma no_dot : no PDot [].
Proof.
  intros inp p th b e0 l Hs. exists p, th, l. apply ev_dot_fail. cbn.
  rewrite (skipn_get _ _ _ Hs). reflexivity.
Qed.
Lemma yes_chr : forall c s, yes (PChar c) (c :: s) 1 false.
Proof.
  intros c s. split; [cbn; lia|]. intros inp p th b e0 l Hs. exists l, [].
  split; [|split; [auto|split; [discriminate|intros X; contradiction]]].
  replace (p + 1) with (S p) by lia.
  apply ev_char_ok. cbn. rewrite (skipn_get _ _ _ Hs). reflexivity.
Qed.
Lemma no_chr : forall c s, hd_error s <> Some c -> no (PChar c) s.
Proof.
  intros c s H inp p th b e0 l Hs. exists p, th, l. apply ev_char_fail. cbn.
  rewrite (skipn_get _ _ _ Hs). auto.
Qed.
Lemma yes_class : forall cs c s, in_class cs c = true -> yes (PClass cs) (c :: s) 1 false.
Proof.
  intros cs c s H. split; [cbn; lia|]. intros inp p th b e0 l Hs. exists l, [].
  split; [|split; [auto|split; [discriminate|intros X; contradiction]]].
  replace (p + 1) with (S p) by lia.
  apply ev_class_ok with (c := c); [|auto]. cbn. rewrite (skipn_get _ _ _ Hs). reflexivity.
Qed.
Lemma no_class : forall cs s, (forall c r, s = c :: r -> in_class cs c = false) -> no (PClass cs) s.
Proof.
  intros cs s H inp p th b e0 l Hs. exists p, th, l. apply ev_class_fail. cbn.
  rewrite (skipn_get _ _ _ Hs). intros c Hc. destruct s as [|c' s']; [discriminate|].
  injection Hc as ->. eapply H. reflexivity.
Qed.

Lemma match_str_suffix : forall str inp s p0 p, skipn p inp = s ->
  (exists r, s = str ++ r) ->
  match_str (get_of inp) str p0 p = inl (p + List.length str).
Proof.
  induction str as [|c str IH]; intros inp s p0 p Hs [r Hr]; cbn.
  - rewrite Nat.add_0_r. reflexivity.
  - rewrite (skipn_get _ _ _ Hs), Hr. cbn. unfold beq. rewrite Ascii.eqb_refl.
    rewrite IH with (s := str ++ r).
    + f_equal. lia.
    + replace (S p) with (p + 1) by lia. rewrite skipn_add, Hs, Hr. reflexivity.
    + exists r. reflexivity.
Qed.
Lemma match_str_suffix_no : forall str inp s p0 p, skipn p inp = s ->
  (forall r, s <> str ++ r) ->
  exists q, match_str (get_of inp) str p0 p = inr q.
Proof.
  induction str as [|c str IH]; intros inp s p0 p Hs Hr; cbn.
  - exfalso. apply (Hr s). reflexivity.
  - rewrite (skipn_get _ _ _ Hs). destruct s as [|c' s']; cbn; [eexists; reflexivity|].
    destruct (beq c c') eqn:Hb; [|eexists; reflexivity].
    apply Ascii.eqb_eq in Hb. subst c'. apply IH with (s := s').
    + replace (S p) with (p + 1) by lia. rewrite skipn_add, Hs. reflexivity.
    + intros r Hr'. apply (Hr r). subst. reflexivity.
Qed.
Lemma yes_str : forall str s, yes (PStr str) (str ++ s) (List.length str) false.
Proof.
  intros str s. split; [rewrite app_length; lia|]. intros inp p th b e0 l Hs. exists l, [].
  split; [|split; [auto|split; [discriminate|intros X; contradiction]]].
  apply (ev_str_ok QG (get_of inp) qprun (mkst p th (mkqu b e0 l))). cbn [pos].
  eapply match_str_suffix; eauto.
Qed.
Lemma no_str : forall str s, (forall r, s <> str ++ r) -> no (PStr str) s.
Proof.
  intros str s H inp p th b e0 l Hs.
  destruct (match_str_suffix_no str inp s p p Hs H) as [q Hq].
  exists q, th, l. apply (ev_str_fail QG (get_of inp) qprun (mkst p th (mkqu b e0 l))). exact Hq.
Qed.

Lemma yes_seq : forall e1 e2 s k1 k2 z1 z2, yes e1 s k1 z1 -> yes e2 (skipn k1 s) k2 z2 ->
  yes (PSeq e1 e2) s (k1 + k2) (z1 || z2).
Proof.
  intros e1 e2 s k1 k2 z1 z2 [L1 H1] [L2 H2]. split; [rewrite skipn_length in L2; lia|].
  intros inp p th b e0 l Hs.
  destruct (H1 inp p th b e0 l Hs) as [l1 [t1 [E1 [F1 Z1]]]].
  destruct (H2 inp (p + k1) (t1 ++ th) b e0 l1) as [l2 [t2 [E2 [F2 Z2]]]].
  { rewrite skipn_add, Hs. reflexivity. }
  exists l2, (t2 ++ t1). rewrite Nat.add_assoc, <- app_assoc. split; [|split].
  - eapply ev_seq_ok; eauto.
  - apply Forall_app. auto.
  - rewrite orb_true_iff, Z1, Z2. destruct t1, t2; cbn; split; intros H; try discriminate;
    try (destruct H; contradiction); try contradiction; auto; try (left; discriminate); try (right; discriminate).
Qed.
Lemma no_seq1 : forall e1 e2 s, no e1 s -> no (PSeq e1 e2) s.
Proof.
  intros e1 e2 s H inp p th b e0 l Hs. destruct (H inp p th b e0 l Hs) as [p' [th' [l' E]]].
  exists p', th', l'. apply ev_seq_fail. auto.
Qed.
Lemma no_seq2 : forall e1 e2 s k z, yes e1 s k z -> no e2 (skipn k s) -> no (PSeq e1 e2) s.
Proof.
  intros e1 e2 s k z [_ H1] H2 inp p th b e0 l Hs.
  destruct (H1 inp p th b e0 l Hs) as [l1 [t1 [E1 _]]].
  destruct (H2 inp (p + k) (t1 ++ th) b e0 l1) as [p' [th' [l' E2]]].
  { rewrite skipn_add, Hs. reflexivity. }
  exists p', th', l'. eapply ev_seq_ok; eauto.
Qed.
Lemma yes_alt1 : forall e1 e2 s k z, yes e1 s k z -> yes (PAlt e1 e2) s k z.
Proof.
  intros e1 e2 s k z [L H]. split; [auto|]. intros inp p th b e0 l Hs.
  destruct (H inp p th b e0 l Hs) as [l1 [t1 [E1 X]]]. exists l1, t1. split; [|auto].
  apply ev_alt_ok. auto.
Qed.
Lemma yes_alt2 : forall e1 e2 s k z, no e1 s -> yes e2 s k z -> yes (PAlt e1 e2) s k z.
Proof.
  intros e1 e2 s k z N [L H]. split; [auto|]. intros inp p th b e0 l Hs.
  destruct (N inp p th b e0 l Hs) as [p' [th' [l' E]]].
  destruct (H inp p th b e0 l' Hs) as [l1 [t1 [E1 X]]]. exists l1, t1. split; [|auto].
  eapply ev_alt_fail; [exact E|]. exact E1.
Qed.
Lemma no_alt : forall e1 e2 s, no e1 s -> no e2 s -> no (PAlt e1 e2) s.
Proof.
  intros e1 e2 s N1 N2 inp p th b e0 l Hs.
  destruct (N1 inp p th b e0 l Hs) as [p' [th' [l' E]]].
  destruct (N2 inp p th b e0 l' Hs) as [p2 [th2 [l2 E2]]].
  exists p2, th2, l2. eapply ev_alt_fail; [exact E|]. exact E2.
Qed.
Lemma yes_star_stop : forall e s, no e s -> yes (PStar e) s 0 false.
Proof.
  intros e s N. apply yes_0. intros inp p th b e0 l Hs.
  destruct (N inp p th b e0 l Hs) as [p' [th' [l' E]]]. exists l'.
  apply (ev_star_stop _ _ _ _ _ _ E).
Qed.
Lemma yes_star_step : forall e s k1 k2 z1 z2, yes e s k1 z1 -> yes (PStar e) (skipn k1 s) k2 z2 ->
  yes (PStar e) s (k1 + k2) (z1 || z2).
Proof.
  intros e s k1 k2 z1 z2 H1 H2.
  assert (yes (PSeq e (PStar e)) s (k1 + k2) (z1 || z2)) as [L H] by (apply yes_seq; auto).
  split; [auto|]. intros inp p th b e0 l Hs.
  destruct H1 as [L1 H1]. destruct H2 as [L2 H2].
  destruct (H1 inp p th b e0 l Hs) as [l1 [t1 [E1 [F1 Z1]]]].
  destruct (H2 inp (p + k1) (t1 ++ th) b e0 l1) as [l2 [t2 [E2 [F2 Z2]]]].
  { rewrite skipn_add, Hs. reflexivity. }
  exists l2, (t2 ++ t1). rewrite Nat.add_assoc, <- app_assoc. split; [|split].
  - eapply ev_star_step; eauto.
  - apply Forall_app. auto.
  - rewrite orb_true_iff, Z1, Z2. destruct t1, t2; cbn; split; intros X; try discriminate;
    try (destruct X; contradiction); try contradiction; auto; try (left; discriminate); try (right; discriminate).
Qed.
Lemma yes_not : forall e s, no e s -> yes (PNot e) s 0 false.
Proof.
  intros e s N. apply yes_0. intros inp p th b e0 l Hs.
  destruct (N inp p th b e0 l Hs) as [p' [th' [l' E]]]. exists l'.
  apply (ev_not_ok _ _ _ _ _ _ E).
Qed.
Lemma no_not : forall e s k z, yes e s k z -> no (PNot e) s.
Proof.
  intros e s k z [_ H] inp p th b e0 l Hs.
  destruct (H inp p th b e0 l Hs) as [l1 [t1 [E1 _]]].
  eexists _, _, _. apply (ev_not_fail _ _ _ _ _ _ E1).
Qed.
Lemma yes_rule : forall r s k z, yes (QG r) s k z -> yes (PRule r) s k z.
Proof.
  intros r s k z [L H]. split; [auto|]. intros inp p th b e0 l Hs.
  destruct (H inp p th b e0 l Hs) as [l1 [t1 [E1 X]]]. exists l1, t1. split; [|auto].
  apply ev_rule_ok. auto.
Qed.
Lemma no_rule : forall r s, no (QG r) s -> no (PRule r) s.
Proof.
  intros r s N inp p th b e0 l Hs. destruct (N inp p th b e0 l Hs) as [p' [th' [l' E]]].
  exists p, th, l'. apply (ev_rule_fail _ _ _ _ _ _ E).
Qed.
Lemma yes_length : forall e s k z, yes e s k z -> k <= List.length s.
Proof. intros e s k z [H _]. exact H. Qed.

Lemma yes_eq : forall e s k z k' z', yes e s k z -> k = k' -> z = z' -> yes e s k' z'.
Proof. intros. subst. auto. Qed.

(** deterministic: used to transport facts *)
Lemma yes_no : forall e s k z, yes e s k z -> no e s -> False.
Proof.
  intros e s k z [_ H] N.
  destruct (H s 0 [] 0 0 [] eq_refl) as [l1 [t1 [E1 _]]].
  destruct (N s 0 [] 0 0 [] eq_refl) as [p' [th' [l' E]]].
  pose proof (ev_det _ _ _ _ _ _ _ E1 E). discriminate.
Qed.

(** ** Characters *)
Lemma beq_true : forall a b, beq a b = true <-> a = b.
Proof. intros. apply Ascii.eqb_eq. Qed.
Lemma beq_false : forall a b, beq a b = false <-> a <> b.
Proof. intros. apply Ascii.eqb_neq. Qed.
Lemma beq_refl : forall a, beq a a = true.
Proof. intros. apply Ascii.eqb_refl. Qed.

(** ** Rules *)
Lemma line_start_yes : forall s, yes (PRule Qline_start) s 0 false.
Proof.
  intros s. apply yes_rule. apply yes_0. intros inp p th b e0 l Hs.
  eexists. apply ev_pred; [|discriminate]. reflexivity.
Qed.

Definition eol_len (s : bytes) : option nat :=
  match s with
  | c :: r => if beq c NL then Some 1
              else if starts_eol s then Some 2 else None
  | [] => None
  end.

Lemma starts_eol_cases : forall s, starts_eol s = true ->
  (exists r, s = NL :: r) \/ (exists r, s = CR :: NL :: r).
Proof.
  intros [|c r] H; cbn in H; [discriminate|]. apply orb_true_iff in H. destruct H as [H|H].
  - apply beq_true in H. subst. left. eauto.
  - apply andb_true_iff in H. destruct H as [H1 H2]. apply beq_true in H1. subst.
    destruct r as [|d r]; [discriminate|]. apply beq_true in H2. subst. right. eauto.
Qed.

Lemma eol_yes1 : forall r, yes (PRule QEOL) (NL :: r) 1 false.
Proof.
  intros r. apply yes_rule. cbn [QG].
  change 1 with (1 + 0). change false with (false || false).
  apply yes_seq; [|apply line_start_yes]. apply yes_alt1. apply yes_chr.
Qed.
Lemma eol_yes2 : forall r, yes (PRule QEOL) (CR :: NL :: r) 2 false.
Proof.
  intros r. apply yes_rule. cbn [QG].
  change 2 with (2 + 0). change false with (false || false).
  apply yes_seq; [|apply line_start_yes]. apply yes_alt2; [apply no_chr; discriminate|].
  apply (yes_str [CR; NL] r).
Qed.
Lemma eol_no : forall s, starts_eol s = false -> no (PRule QEOL) s.
Proof.
  intros s H. apply no_rule. cbn [QG]. apply no_seq1. apply no_alt.
  - apply no_chr. destruct s as [|c s]; [discriminate|]. cbn in *. intros E. injection E as ->.
    discriminate.
  - apply no_str. intros r E. subst s. discriminate.
Qed.
Lemma eol_yes : forall s, starts_eol s = true -> exists k, 1 <= k /\ eol_len s = Some k /\
   yes (PRule QEOL) s k false.
Proof.
  intros s H. destruct (starts_eol_cases s H) as [[r ->]|[r ->]].
  - exists 1. repeat split; auto. apply eol_yes1. apply eol_yes1.
  - exists 2. repeat split; auto. apply eol_yes2. apply eol_yes2.
Qed.

Lemma eof_yes : yes (PRule QEOF) [] 0 true.
Proof.
  apply yes_rule. cbn [QG]. change 0 with (0 + 0). change true with (false || true).
  apply yes_seq; [apply yes_not, no_dot|].
  split; [auto|]. intros inp p th b e0 l Hs. exists l, [(AEof, p)].
  rewrite Nat.add_0_r. split; [apply ev_act|]. split; [repeat constructor|].
  split; [discriminate|reflexivity].
Qed.
Lemma eof_no : forall c s, no (PRule QEOF) (c :: s).
Proof.
  intros c s. apply no_rule. cbn [QG]. apply no_seq1. eapply no_not. apply yes_dot.
Qed.

Lemma hws_yes : forall c s, starts_hspace (c :: s) = true -> yes (PRule QHWS) (c :: s) 1 false.
Proof.
  intros c s H. apply yes_rule. cbn [QG]. apply yes_class. unfold in_class. cbn.
  cbn in H. rewrite orb_false_r. exact H.
Qed.
Lemma hws_no : forall s, starts_hspace s = false -> no (PRule QHWS) s.
Proof.
  intros s H. apply no_rule. cbn [QG]. apply no_class. intros c r ->. unfold in_class. cbn.
  cbn in H. rewrite orb_false_r. exact H.
Qed.

Lemma escaped_yes : forall d s, in_class escapes d = true ->
  yes (PRule Qescaped_char) (BSL :: d :: s) 2 false.
Proof.
  intros d s H. apply yes_rule. cbn [QG]. change 2 with (1 + 1). change false with (false || false).
  apply yes_seq; [apply yes_chr|]. apply yes_class. auto.
Qed.
Definition starts_escape (s : bytes) : bool :=
  match s with c :: d :: _ => beq c BSL && in_class escapes d | _ => false end.
Lemma escaped_no : forall s, starts_escape s = false -> no (PRule Qescaped_char) s.
Proof.
  intros s H. apply no_rule. cbn [QG]. destruct s as [|c s].
  - apply no_seq1, no_chr. discriminate.
  - destruct (beq c BSL) eqn:Hc.
    + apply beq_true in Hc. subst c. eapply no_seq2; [apply yes_chr|]. cbn [skipn].
      apply no_class. intros d r ->. exact H.
    + apply no_seq1, no_chr. apply beq_false in Hc. cbn. congruence.
Qed.

(** *** line comments *)
Fixpoint has_nl (s : bytes) : bool :=
  match s with [] => false | c :: r => beq c NL || has_nl r end.

(** the loop of a line comment and its end *)
Lemma line_comment_tail : forall s,
  exists k, yes (PStar (PNot (rl QEOL) ⋅ PDot)) s k false /\
    yes (rl QEOL ∥ rl QEOF) (skipn k s) (through_nl s - k) (negb (has_nl s)) /\
    k <= through_nl s.
Proof.
  induction s as [|c s IH].
  - exists 0. split; [|split].
    + apply yes_star_stop. eapply no_seq2; [apply yes_not, eol_no; reflexivity|apply no_dot].
    + cbn. apply yes_alt2; [apply eol_no; reflexivity|apply eof_yes].
    + auto.
  - destruct (starts_eol (c :: s)) eqn:He.
    + exists 0. destruct (starts_eol_cases _ He) as [[r Hr]|[r Hr]]; injection Hr as -> ->.
      * split; [|split].
        -- apply yes_star_stop, no_seq1. eapply no_not. apply eol_yes1.
        -- cbn. apply yes_alt1. apply eol_yes1.
        -- cbn. lia.
      * split; [|split].
        -- apply yes_star_stop, no_seq1. eapply no_not. apply eol_yes2.
        -- cbn. apply yes_alt1. apply eol_yes2.
        -- lia.
    + destruct IH as [k [H1 [H2 H3]]]. exists (S k).
      assert (beq c NL = false) as Hc. { cbn in He. apply orb_false_iff in He. apply He. }
      split; [|split].
      * change (S k) with (1 + k). change false with (false || false).
        apply yes_star_step; [|exact H1]. change 1 with (0 + 1). change false with (false || false).
        apply yes_seq; [apply yes_not, eol_no; auto|apply yes_dot].
      * cbn [through_nl has_nl skipn]. rewrite Hc. cbn [orb Nat.sub]. exact H2.
      * cbn [through_nl]. rewrite Hc. lia.
Qed.

Lemma line_comment_yes : forall s, starts_line_comment s = true ->
  yes (PRule Qline_comment) s (tok s) (negb (has_nl s)).
Proof.
  intros s H. destruct s as [|c [|d r]]; try discriminate. cbn in H.
  apply andb_true_iff in H. destruct H as [H1 H2]. apply beq_true in H1, H2. subst.
  apply yes_rule. cbn [QG]. destruct (line_comment_tail r) as [k [Y1 [Y2 Y3]]].
  assert (tok ("/" :: "/" :: r)%char = 2 + (k + (through_nl r - k))) as ->
    by (cbn; f_equal; f_equal; lia).
  change (negb (has_nl ("/" :: "/" :: r)%char)) with (false || (false || negb (has_nl r))).
  apply (yes_seq (PStr (B "//"))); [apply (yes_str (B "//") r)|].
  cbn [skipn]. apply yes_seq; [exact Y1|exact Y2].
Qed.
Lemma line_comment_no : forall s, starts_line_comment s = false -> no (PRule Qline_comment) s.
Proof.
  intros s H. apply no_rule. cbn [QG]. apply no_seq1, no_str. intros r ->. discriminate.
Qed.

(** *** block comments *)
Lemma block_loop : forall n s, List.length s <= n ->
  match through_close s with
  | Some k => yes (PStar (rl QEOL ∥ PNot (PStr (B "*/")) ⋅ PDot)) s (k - 2) false
              /\ 2 <= k /\ exists r, skipn (k - 2) s = B "*/" ++ r
  | None => yes (PStar (rl QEOL ∥ PNot (PStr (B "*/")) ⋅ PDot)) s (List.length s) false
  end.
Proof.
  induction n as [|n IH]; intros s Hn.
  - destruct s; [|cbn in Hn; lia]. cbn. apply yes_star_stop, no_alt; [apply eol_no; reflexivity|].
    eapply no_seq2; [apply yes_not, no_str; intros r; discriminate|]. apply no_dot.
  - destruct s as [|c s].
    { cbn. apply yes_star_stop, no_alt; [apply eol_no; reflexivity|].
      eapply no_seq2; [apply yes_not, no_str; intros r; discriminate|]. apply no_dot. }
    cbn in Hn. assert (List.length s <= n) as Hn' by lia.
    assert (Hdot : forall d r, s = d :: r -> beq c "*" && beq d "/" = false ->
       yes (PNot (PStr (B "*/")) ⋅ PDot) (c :: s) 1 false) .
    { intros d r -> Hcd. change 1 with (0 + 1). change false with (false || false).
      apply yes_seq; [|apply yes_dot]. apply yes_not, no_str. intros r' E.
      cbn in E. injection E as -> -> _. discriminate. }
    assert (Hstep : forall k z, yes (PStar (rl QEOL ∥ PNot (PStr (B "*/")) ⋅ PDot)) s k z ->
       (forall d r, s = d :: r -> beq c "*" && beq d "/" = false) ->
       starts_eol (c :: s) = false ->
       yes (PStar (rl QEOL ∥ PNot (PStr (B "*/")) ⋅ PDot)) (c :: s) (S k) z).
    { intros k z Y Hcd He. change (S k) with (1 + k). change z with (false || z).
      apply yes_star_step; [|exact Y]. apply yes_alt2; [apply eol_no; auto|].
      destruct s as [|d r].
      - change 1 with (0 + 1). change false with (false || false).
        apply yes_seq; [|apply yes_dot]. apply yes_not, no_str. intros r'. discriminate.
      - eapply Hdot; eauto. }
    destruct (starts_eol (c :: s)) eqn:He.
    + destruct (starts_eol_cases _ He) as [[r Hr]|[r Hr]]; injection Hr as -> ->.
      * (* NL *)
        specialize (IH r Hn'). cbn [through_close].
        destruct r as [|d r].
        { cbn. change 1 with (1 + 0). change false with (false || false).
          apply yes_star_step; [apply yes_alt1, eol_yes1|]. exact IH. }
        cbn [beq]. replace (beq NL "*" && beq d "/") with false by reflexivity.
        destruct (through_close (d :: r)) as [k|].
        -- destruct IH as [Y [Hk [r' Hr']]]. split; [|split].
           ++ replace (S k - 2) with (1 + (k - 2)) by lia. change false with (false || false).
              apply yes_star_step; [apply yes_alt1, eol_yes1|]. exact Y.
           ++ lia.
           ++ exists r'. replace (S k - 2) with (S (k - 2)) by lia. exact Hr'.
        -- change (List.length (NL :: d :: r)) with (1 + List.length (d :: r)).
           change false with (false || false).
           apply yes_star_step; [apply yes_alt1, eol_yes1|]. exact IH.
      * (* CR NL *)
        cbn in Hn'. assert (List.length r <= n) as Hn2 by lia. specialize (IH r Hn2).
        cbn [through_close].
        replace (beq CR "*" && beq NL "/") with false by reflexivity.
        destruct r as [|d r].
        { cbn. change 2 with (2 + 0). change false with (false || false).
          apply yes_star_step; [apply yes_alt1, eol_yes2|]. exact IH. }
        replace (beq NL "*" && beq d "/") with false by reflexivity.
        destruct (through_close (d :: r)) as [k|].
        -- destruct IH as [Y [Hk [r' Hr']]]. split; [|split].
           ++ replace (S (S k) - 2) with (2 + (k - 2)) by lia. change false with (false || false).
              apply yes_star_step; [apply yes_alt1, eol_yes2|]. exact Y.
           ++ lia.
           ++ exists r'. replace (S (S k) - 2) with (S (S (k - 2))) by lia. exact Hr'.
        -- change (List.length (CR :: NL :: d :: r)) with (2 + List.length (d :: r)).
           change false with (false || false).
           apply yes_star_step; [apply yes_alt1, eol_yes2|]. exact IH.
    + specialize (IH s Hn'). cbn [through_close]. destruct s as [|d r].
      * apply (Hstep 0 false); auto. intros; discriminate.
      * destruct (beq c "*" && beq d "/") eqn:Hcd.
        -- apply andb_true_iff in Hcd. destruct Hcd as [H1 H2]. apply beq_true in H1, H2. subst.
           split; [|split; [lia|exists r; reflexivity]].
           apply yes_star_stop, no_alt; [apply eol_no; auto|]. apply no_seq1.
           eapply no_not. apply (yes_str (B "*/") r).
        -- destruct (through_close (d :: r)) as [k|].
           ++ destruct IH as [Y [Hk [r' Hr']]]. split; [|split].
              ** replace (S k - 2) with (S (k - 2)) by lia. apply Hstep; auto.
                 intros d' r'' E. injection E as <- <-. auto.
              ** lia.
              ** exists r'. replace (S k - 2) with (S (k - 2)) by lia. exact Hr'.
           ++ apply (Hstep (List.length (d :: r)) false); auto.
              intros d' r'' E. injection E as <- <-. auto.
Qed.

Lemma skipn_all' : forall (s : bytes), skipn (List.length s) s = [].
Proof. intros. apply skipn_all. Qed.

Lemma block_comment_yes : forall s, starts_block_comment s = true ->
  yes (PRule Qblock_comment) s (tok s) false.
Proof.
  intros s H. destruct s as [|c [|d r]]; try discriminate. cbn in H.
  apply andb_true_iff in H. destruct H as [H1 H3]. apply andb_true_iff in H1.
  destruct H1 as [H1 H2]. apply beq_true in H1, H2. subst.
  destruct (through_close r) as [k|] eqn:Hk; [|discriminate].
  pose proof (block_loop (List.length r) r (le_n _)) as HB. rewrite Hk in HB.
  destruct HB as [Y [H2 [r' Hr']]].
  apply yes_rule. cbn [QG].
  assert (tok ("/" :: "*" :: r)%char = 2 + ((k - 2) + 2)) as -> by (cbn; rewrite Hk; lia).
  change false with (false || (false || false)).
  apply (yes_seq (PStr (B "/*"))); [apply (yes_str (B "/*") r)|]. cbn [skipn].
  apply yes_seq; [exact Y|]. rewrite Hr'. apply (yes_str (B "*/")).
Qed.
Lemma block_comment_no : forall s, starts_block_comment s = false -> no (PRule Qblock_comment) s.
Proof.
  intros s H. apply no_rule. cbn [QG].
  destruct (starts_block_comment s) eqn:E; [discriminate|]. clear H.
  destruct s as [|c [|d r]]; try (apply no_seq1, no_str; intros r; discriminate).
  destruct (beq c "/" && beq d "*") eqn:Hcd.
  - cbn in E. rewrite Hcd in E. cbn in E.
    apply andb_true_iff in Hcd. destruct Hcd as [H1 H2]. apply beq_true in H1, H2. subst.
    destruct (through_close r) as [k|] eqn:Hk; [discriminate|].
    pose proof (block_loop (List.length r) r (le_n _)) as HB. rewrite Hk in HB.
    eapply no_seq2; [apply (yes_str (B "/*") r)|]. cbn [skipn List.length B list_ascii_of_string].
    eapply no_seq2; [exact HB|]. rewrite skipn_all'. apply no_str. intros r'. discriminate.
  - apply no_seq1, no_str. intros r' Hr'. cbn in Hr'. injection Hr' as -> -> _. discriminate.
Qed.

Definition starts_unclosed_comment (s : bytes) : bool :=
  match s with
  | c :: d :: r => beq c "/" && beq d "*" &&
      match through_close r with Some _ => false | None => true end
  | _ => false
  end.
Lemma unclosed_yes : forall s, starts_unclosed_comment s = true ->
  yes (PRule Qunclosed_block_comment) s (tok s) true /\ tok s = List.length s.
Proof.
  intros s H. destruct s as [|c [|d r]]; try discriminate. cbn in H.
  apply andb_true_iff in H. destruct H as [H1 H3]. apply andb_true_iff in H1.
  destruct H1 as [H1 H2]. apply beq_true in H1, H2. subst.
  destruct (through_close r) as [k|] eqn:Hk; [discriminate|].
  pose proof (block_loop (List.length r) r (le_n _)) as HB. rewrite Hk in HB.
  assert (tok ("/" :: "*" :: r)%char = 2 + (List.length r + 0)) as E by (cbn; rewrite Hk; cbn; lia).
  split; [|rewrite E; cbn; lia].
  apply yes_rule. cbn [QG]. rewrite E. change true with (false || (false || true)).
  apply (yes_seq (PStr (B "/*"))); [apply (yes_str (B "/*") r)|]. cbn [skipn].
  apply yes_seq; [exact HB|]. rewrite skipn_all'. apply eof_yes.
Qed.
Lemma unclosed_no : forall s, starts_unclosed_comment s = false -> no (PRule Qunclosed_block_comment) s.
Proof.
  intros s E. apply no_rule. cbn [QG].
  destruct s as [|c [|d r]]; try (apply no_seq1, no_str; intros r; discriminate).
  destruct (beq c "/" && beq d "*") eqn:Hcd.
  - cbn in E. rewrite Hcd in E. cbn in E.
    apply andb_true_iff in Hcd. destruct Hcd as [H1 H2]. apply beq_true in H1, H2. subst.
    destruct (through_close r) as [k|] eqn:Hk; [|discriminate].
    pose proof (block_loop (List.length r) r (le_n _)) as HB. rewrite Hk in HB.
    destruct HB as [Y [H2 [r' Hr']]].
    eapply no_seq2; [apply (yes_str (B "/*") r)|]. cbn [skipn List.length B list_ascii_of_string].
    eapply no_seq2; [exact Y|]. rewrite Hr'. apply eof_no.
  - apply no_seq1, no_str. intros r' Hr'. cbn in Hr'. injection Hr' as -> -> _. discriminate.
Qed.

(** *** quoted strings *)
Definition qloop_exp (q : ascii) : qexp :=
  PStar (rl Qescaped_char ∥ rl QEOL ∥ PNot (chr q) ⋅ PDot).

Lemma quote_loop : forall q, q <> BSL -> q <> NL -> q <> CR -> forall n s, List.length s <= n ->
  exists k z, yes (qloop_exp q ⋅ (chr q ∥ rl QEOF)) s k z /\ k = through_quote q s /\
     (z = true -> k = List.length s).
Proof.
  intros q Hq1 Hq2 Hq3. unfold qloop_exp.
  set (body := rl Qescaped_char ∥ rl QEOL ∥ PNot (chr q) ⋅ PDot).
  assert (Hend : exists k z, yes (PStar body ⋅ (chr q ∥ rl QEOF)) [] k z /\ k = through_quote q [] /\ (z = true -> k = List.length (@nil ascii))).
  { exists 0, true. split; [|split; reflexivity].
    change 0 with (0 + 0). change true with (false || true). apply yes_seq.
    - apply yes_star_stop. apply no_alt; [apply escaped_no; reflexivity|].
      apply no_alt; [apply eol_no; reflexivity|].
      eapply no_seq2; [apply yes_not, no_chr; discriminate|apply no_dot].
    - apply yes_alt2; [apply no_chr; discriminate|apply eof_yes]. }
  assert (Hstep : forall s k1 k z, yes body s k1 false ->
     yes (PStar body ⋅ (chr q ∥ rl QEOF)) (skipn k1 s) k z ->
     yes (PStar body ⋅ (chr q ∥ rl QEOF)) s (k1 + k) z).
  { intros s k1 k z [L1 Y1] [L2 Y2]. split; [rewrite skipn_length in L2; lia|].
    intros inp p th b e0 l Hs.
    destruct (Y1 inp p th b e0 l Hs) as [l1 [t1 [E1 [F1 Z1]]]].
    assert (t1 = []) as ->. { destruct t1; [reflexivity|]. exfalso.
      assert (false = true) as X by (apply Z1; discriminate). discriminate. }
    destruct (Y2 inp (p + k1) th b e0 l1) as [l2 [t2 [E2 X2]]].
    { rewrite skipn_add, Hs. reflexivity. }
    exists l2, t2. split; [|exact X2]. rewrite Nat.add_assoc.
    (* split the sequence evaluation *)
    destruct E2 as [m [E2 _]]. destruct m as [|m]; [discriminate|]. cbn [run] in E2.
    destruct (run QG (get_of inp) qprun m (PStar body) (mkst (p + k1) th (mkqu b e0 l1))) as [sx| | |] eqn:HX; try discriminate.
    eapply ev_seq_ok.
    - eapply ev_star_step; [exact E1|]. exists m. split; [exact HX|discriminate].
    - exists m. split; [exact E2|discriminate]. }
  induction n as [|n IH]; intros s Hn.
  { destruct s; [|cbn in Hn; lia]. exact Hend. }
  destruct s as [|c s]; [exact Hend|]. cbn in Hn.
  destruct (beq c q) eqn:Hcq.
  - apply beq_true in Hcq. subst c. exists 1, false. split; [|split; [cbn; rewrite beq_refl; reflexivity|discriminate]].
    change 1 with (0 + 1). change false with (false || false). apply yes_seq.
    + apply yes_star_stop. apply no_alt.
      * apply escaped_no. destruct s; [reflexivity|]. cbn.
        destruct (beq q BSL) eqn:E; [apply beq_true in E; contradiction|reflexivity].
      * apply no_alt; [apply eol_no|].
        -- cbn. apply orb_false_iff. split; [apply beq_false; auto|].
           apply beq_false in Hq3. rewrite Hq3. reflexivity.
        -- apply no_seq1. eapply no_not. apply yes_chr.
    + apply yes_alt1, yes_chr.
  - destruct (starts_escape (c :: s)) eqn:He.
    + destruct s as [|d s]; [discriminate|]. cbn [starts_escape] in He.
      cbn in Hn. destruct (IH s) as [k [z [Y [-> Hz]]]]; [lia|].
      exists (2 + through_quote q s), z. split; [|split].
      * apply Hstep; [|exact Y]. apply yes_alt1.
        apply andb_true_iff in He. destruct He as [H1 H2]. apply beq_true in H1. subst.
        apply escaped_yes. auto.
      * cbn [through_quote]. rewrite Hcq, He. reflexivity.
      * intros E. apply Hz in E. cbn. lia.
    + destruct (starts_eol (c :: s)) eqn:Hel.
      * destruct (starts_eol_cases _ Hel) as [[r Hr]|[r Hr]]; injection Hr as -> ->.
        -- destruct (IH r) as [k [z [Y [-> Hz]]]]; [lia|].
           exists (1 + through_quote q r), z. split; [|split].
           ++ apply Hstep; [|exact Y]. apply yes_alt2; [apply escaped_no; auto|].
              apply yes_alt1, eol_yes1.
           ++ cbn [through_quote]. rewrite Hcq. destruct r; reflexivity.
           ++ intros E. apply Hz in E. cbn. lia.
        -- cbn in Hn. destruct (IH r) as [k [z [Y [-> Hz]]]]; [lia|].
           exists (2 + through_quote q r), z. split; [|split].
           ++ apply Hstep; [|exact Y]. apply yes_alt2; [apply escaped_no; auto|].
              apply yes_alt1, eol_yes2.
           ++ cbn [through_quote]. rewrite Hcq. apply not_eq_sym, beq_false in Hq2. rewrite Hq2.
              cbn. destruct r; reflexivity.
           ++ intros E. apply Hz in E. cbn. lia.
      * destruct (IH s) as [k [z [Y [-> Hz]]]]; [lia|].
        exists (1 + through_quote q s), z. split; [|split].
        -- apply Hstep; [|exact Y]. apply yes_alt2; [apply escaped_no; auto|].
           apply yes_alt2; [apply eol_no; auto|].
           change 1 with (0 + 1). change false with (false || false).
           apply yes_seq; [|apply yes_dot]. apply yes_not, no_chr. cbn.
           apply beq_false in Hcq. congruence.
        -- cbn [through_quote]. rewrite Hcq. destruct s as [|d s]; [reflexivity|].
           cbn [starts_escape] in He. rewrite He. reflexivity.
        -- intros E. apply Hz in E. cbn. lia.
Qed.

Definition starts_quote (s : bytes) : bool :=
  match s with c :: _ => is_quote c | [] => false end.

Lemma quoted_yes : forall s, starts_quote s = true ->
  exists z, yes (PRule Qquoted) s (tok s) z /\ (z = true -> tok s = List.length s).
Proof.
  intros [|c s] H; [discriminate|]. cbn in H.
  assert (tok (c :: s) = S (through_quote c s)) as E.
  { cbn. rewrite H. reflexivity. }
  rewrite E. clear E. unfold is_quote in H. apply orb_true_iff in H.
  destruct H as [H|H]; apply beq_true in H; subst c.
  - destruct (quote_loop SQ ltac:(discriminate) ltac:(discriminate) ltac:(discriminate) (List.length s) s (le_n _)) as [k [z [Y [-> Hz]]]].
    exists z. split; [|intros E; apply Hz in E; cbn; lia].
    apply yes_rule. cbn [QG]. apply yes_alt1, yes_rule. cbn [QG].
    change (S (through_quote SQ s)) with (1 + through_quote SQ s). change z with (false || z).
    apply yes_seq; [apply yes_chr|exact Y].
  - destruct (quote_loop DQ ltac:(discriminate) ltac:(discriminate) ltac:(discriminate) (List.length s) s (le_n _)) as [k [z [Y [-> Hz]]]].
    exists z. split; [|intros E; apply Hz in E; cbn; lia].
    apply yes_rule. cbn [QG]. apply yes_alt2; [apply no_rule; cbn [QG]; apply no_seq1, no_chr; discriminate|].
    apply yes_rule. cbn [QG].
    change (S (through_quote DQ s)) with (1 + through_quote DQ s). change z with (false || z).
    apply yes_seq; [apply yes_chr|exact Y].
Qed.
Lemma quoted_no : forall s, starts_quote s = false -> no (PRule Qquoted) s.
Proof.
  intros s H. apply no_rule. cbn [QG].
  apply no_alt; apply no_rule; cbn [QG]; apply no_seq1, no_chr; destruct s as [|c s]; cbn; try discriminate;
  intros E; injection E as ->; discriminate.
Qed.

(** *** blanks *)
Lemma comment_yes : forall s, starts_line_comment s = true \/ starts_block_comment s = true ->
  exists z, yes (PRule Qcomment) s (tok s) z /\ (z = true -> has_nl s = false /\ starts_line_comment s = true).
Proof.
  intros s H. destruct (starts_line_comment s) eqn:Hl.
  - exists (negb (has_nl s)). split; [|destruct (has_nl s); split; auto; discriminate].
    apply yes_rule. cbn [QG]. apply yes_alt1, line_comment_yes. auto.
  - destruct H as [H|H]; [discriminate|]. exists false. split; [|discriminate].
    apply yes_rule. cbn [QG]. apply yes_alt2; [apply line_comment_no; auto|].
    apply block_comment_yes. auto.
Qed.
Lemma comment_no : forall s, starts_line_comment s = false -> starts_block_comment s = false ->
  no (PRule Qcomment) s.
Proof.
  intros s H1 H2. apply no_rule. cbn [QG]. apply no_alt; [apply line_comment_no|apply block_comment_no]; auto.
Qed.

Lemma tok_pos : forall c r, 1 <= tok (c :: r).
Proof.
  intros c r. cbn [tok]. destruct (is_quote c); [lia|]. destruct r as [|d r]; [lia|].
  destruct (beq c "/" && beq d "/"); [lia|]. destruct (beq c "/" && beq d "*").
  - destruct (through_close r); cbn [List.length]; lia.
  - destruct (beq c BSL && in_class escapes d); lia.
Qed.

Lemma through_nl_le : forall s, through_nl s <= List.length s.
Proof. induction s as [|c s IH]; cbn; [lia|]. destruct (beq c NL); lia. Qed.
Lemma through_nl_end : forall s, has_nl s = false -> through_nl s = List.length s.
Proof.
  induction s as [|c s IH]; cbn; [lia|]. intros H. apply orb_false_iff in H. destruct H as [-> H].
  rewrite IH; auto.
Qed.
Lemma line_comment_eof : forall s, starts_line_comment s = true -> has_nl s = false ->
  tok s = List.length s.
Proof.
  intros s H1 H2. destruct s as [|c [|d r]]; try discriminate. cbn in H1.
  apply andb_true_iff in H1. destruct H1 as [H1 H3]. apply beq_true in H1, H3. subst.
  cbn in *. rewrite through_nl_end; auto.
Qed.

Lemma blank_no : forall s,
  starts_hspace s = false -> starts_eol s = false ->
  starts_line_comment s = false -> starts_block_comment s = false ->
  no (rl QWS ∥ rl Qcomment) s.
Proof.
  intros s H1 H2 H3 H4. apply no_alt; [|apply comment_no; auto].
  apply no_rule. cbn [QG]. apply no_alt; [apply hws_no|apply eol_no]; auto.
Qed.

Lemma not_hspace_comment : forall s, starts_line_comment s = true \/ starts_block_comment s = true ->
  starts_hspace s = false /\ starts_eol s = false.
Proof.
  intros s H. assert (exists d r, s = "/"%char :: d :: r) as [d [r ->]].
  { destruct s as [|c [|d r]]; cbn in H; try (destruct H; discriminate).
    exists d, r. f_equal. destruct H as [H|H]; apply andb_true_iff in H.
    - destruct H as [H _]. apply beq_true in H. auto.
    - destruct H as [H _]. apply andb_true_iff in H. destruct H as [H _]. apply beq_true in H. auto. }
  split; reflexivity.
Qed.

(** [-] consumes exactly the maximal run of blanks *)
Lemma sp_yes : forall s k, blanks s k ->
  exists z, yes (PRule Qsp) s k z /\ (z = true -> k = List.length s).
Proof.
  intros s k H.
  assert (exists z, yes (PStar (rl QWS ∥ rl Qcomment)) s k z /\ (z = true -> k = List.length s)) as [z [Y Hz]].
  { induction H as [s H1 H2 H3 H4|c r k Hc _ [z [Y Hz]]|r k _ [z [Y Hz]]|r k _ [z [Y Hz]]|s k Hc _ [z [Y Hz]]].
    - exists false. split; [|discriminate]. apply yes_star_stop, blank_no; auto.
    - exists z. split; [|intros E; apply Hz in E; cbn; lia].
      change (S k) with (1 + k). change z with (false || z). apply yes_star_step; [|exact Y].
      apply yes_alt1, yes_rule. cbn [QG]. apply yes_alt1, hws_yes. auto.
    - exists z. split; [|intros E; apply Hz in E; cbn; lia].
      change (S k) with (1 + k). change z with (false || z). apply yes_star_step; [|exact Y].
      apply yes_alt1, yes_rule. cbn [QG]. apply yes_alt2; [apply hws_no; reflexivity|apply eol_yes1].
    - exists z. split; [|intros E; apply Hz in E; cbn; lia].
      change (S (S k)) with (2 + k). change z with (false || z). apply yes_star_step; [|exact Y].
      apply yes_alt1, yes_rule. cbn [QG]. apply yes_alt2; [apply hws_no; reflexivity|apply eol_yes2].
    - destruct (comment_yes s Hc) as [z1 [Y1 Hz1]].
      destruct (not_hspace_comment s Hc) as [N1 N2].
      exists (z1 || z). split.
      + apply yes_star_step; [|exact Y]. apply yes_alt2; [|exact Y1].
        apply no_rule. cbn [QG]. apply no_alt; [apply hws_no|apply eol_no]; auto.
      + pose proof (yes_length _ _ _ _ Y1) as L1. pose proof (yes_length _ _ _ _ Y) as L2.
        rewrite skipn_length in L2. intros E. apply orb_true_iff in E. destruct E as [E|E].
        * destruct (Hz1 E) as [E1 E2]. rewrite (line_comment_eof s E2 E1) in *. lia.
        * apply Hz in E. rewrite skipn_length in E. lia. }
  exists z. split; [|auto]. apply yes_rule. exact Y.
Qed.

Lemma hsp_yes : forall s k, hblanks s k -> yes (PRule Qhsp) s k false.
Proof.
  intros s k H. apply yes_rule. cbn [QG].
  induction H as [s H1 H2|c r k Hc _ Y|s k Hc _ Y].
  - apply yes_star_stop, no_alt; [apply hws_no|apply block_comment_no]; auto.
  - change (S k) with (1 + k). change false with (false || false). apply yes_star_step; [|exact Y].
    apply yes_alt1, hws_yes; auto.
  - change false with (false || false). apply yes_star_step; [|exact Y].
    apply yes_alt2; [|apply block_comment_yes; auto].
    apply hws_no. apply not_hspace_comment. auto.
Qed.

(** totality of the blank runs *)
Lemma skipn_lt : forall (s : bytes) k, 1 <= k -> s <> [] -> List.length (skipn k s) < List.length s.
Proof. intros s k H1 H2. rewrite skipn_length. destruct s; [contradiction|]. cbn [List.length]. lia. Qed.

Lemma blanks_total : forall n s, List.length s <= n -> exists k, blanks s k.
Proof.
  induction n as [|n IH]; intros s Hn.
  - destruct s; [|cbn in Hn; lia]. exists 0. constructor; reflexivity.
  - destruct s as [|c r]; [exists 0; constructor; reflexivity|]. cbn in Hn.
    destruct (starts_hspace (c :: r)) eqn:H1.
    { destruct (IH r) as [k Hk]; [lia|]. exists (S k). apply bl_space; auto. }
    destruct (starts_eol (c :: r)) eqn:H2.
    { destruct (starts_eol_cases _ H2) as [[r' E]|[r' E]]; injection E as -> ->.
      - destruct (IH r') as [k Hk]; [lia|]. exists (S k). apply bl_nl; auto.
      - cbn in Hn. destruct (IH r') as [k Hk]; [lia|]. exists (S (S k)). apply bl_crnl; auto. }
    pose proof (tok_pos c r) as Ht. cbn [List.length] in *.
    assert (List.length (skipn (tok (c :: r)) (c :: r)) <= n) as Hl.
    { pose proof (skipn_lt (c :: r) (tok (c :: r)) Ht ltac:(discriminate)) as H. cbn [List.length] in H. lia. }
    destruct (starts_line_comment (c :: r)) eqn:H3.
    { destruct (IH _ Hl) as [k Hk]. exists (tok (c :: r) + k). apply bl_comment; auto. }
    destruct (starts_block_comment (c :: r)) eqn:H4.
    { destruct (IH _ Hl) as [k Hk]. exists (tok (c :: r) + k). apply bl_comment; auto. }
    exists 0. apply bl_stop; auto.
Qed.
Lemma hblanks_total : forall n s, List.length s <= n -> exists k, hblanks s k.
Proof.
  induction n as [|n IH]; intros s Hn.
  - destruct s; [|cbn in Hn; lia]. exists 0. constructor; reflexivity.
  - destruct s as [|c r]; [exists 0; constructor; reflexivity|]. cbn in Hn.
    destruct (starts_hspace (c :: r)) eqn:H1.
    { destruct (IH r) as [k Hk]; [lia|]. exists (S k). apply hb_space; auto. }
    pose proof (tok_pos c r) as Ht. cbn [List.length] in *.
    destruct (starts_block_comment (c :: r)) eqn:H4.
    { destruct (IH (skipn (tok (c :: r)) (c :: r))) as [k Hk].
      - pose proof (skipn_lt (c :: r) (tok (c :: r)) Ht ltac:(discriminate)) as H. cbn [List.length] in H. lia.
      - exists (tok (c :: r) + k). apply hb_comment; auto. }
    exists 0. apply hb_stop; auto.
Qed.
