(** * No assertion fails and no constructor rejects its arguments *)
From Coq Require Import List Bool Arith ZArith NArith Lia Sorted.
From Verif Require Import Peg PegProofs PegThunks LineSafe QuickModel QuickSpec QuickProofs QuickProps
  CypherSyntax CypherGrammar OperModel ErrModel CypherMatch CypherInv
  AstTypes AstModel CypherBuild CypherExec CypherParse CypherRound CypherSpec ExecRange CypherLoop
  CypherChain UtilProofs ErrChain Flow FlowSound FlowRun SafeSpec.
Import ListNotations.
Opaque parse_one cfuel.
Strategy expand [crun].

(** ** What is left of the grammar when no comment is next to a dot *)
Definition dotted (l : bytes) (c : ctor) : cexp :=
  PPred (QDo TBlockStart) ⋅ PAct (TDo [SStrReset]) ⋅ PErr (PStar (PRule R_symbolic_name ⋅
  PStar (PRule R_WS) ⋅ PRule R_DOT ⋅ PStar (PRule R_WS) ⋅ PAct (TDo [SStrAppend (B ".")])) ⋅
  PRule R_symbolic_name) (QErr l) ⋅ PPred (QDo TBlockEnd) ⋅
  PAct (TDo [SLet LRet (RMk c [])]) ⋅ PRule R_sp.
Definition GD (r : rule) : cexp :=
  match r with
  | R_function_name => dotted (B "a function name") K_strbuf_function_name
  | R_proc_name => dotted (B "a procedure name") K_strbuf_proc_name
  | _ => CG r
  end.

Section Dot.
Variables (col : coloring) (off : position) (inp : bytes).
Notation runc := (run CG (get_of inp) (cprun col off)).
Notation cst := (pst action cuser).

(** [s'] is reached from [s] over the text [t] *)
Definition over (s s' : cst) (t : bytes) : Prop :=
  pos s' = pos s + List.length t /\ skipn (pos s) inp = t ++ skipn (pos s') inp.

Lemma over_nil : forall s s', pos s' = pos s -> over s s' [].
Proof. intros s s' H. split; cbn; [lia|congruence]. Qed.
Lemma over_app : forall s s1 s2 t1 t2, over s s1 t1 -> over s1 s2 t2 -> over s s2 (t1 ++ t2).
Proof.
  intros s s1 s2 t1 t2 [A1 A2] [B1 B2]. split; [rewrite app_length; lia|]. rewrite A2, B2, app_assoc. reflexivity.
Qed.
Lemma over_any : forall n e s s', pos s <= List.length inp -> runc n e s = ROk s' -> exists t, over s s' t.
Proof.
  intros n e s s' Hp H. pose proof (run_ok_pos _ _ _ _ _ _ _ H) as H1.
  pose proof (match_bound col off inp n e s s' Hp H) as H2.
  exists (firstn (pos s' - pos s) (skipn (pos s) inp)). split.
  - rewrite firstn_length, skipn_length. lia.
  - rewrite <- (firstn_skipn (pos s' - pos s) (skipn (pos s) inp)) at 1. f_equal.
    rewrite skipn_add. f_equal. lia.
Qed.
Lemma skipn_S : forall (l : bytes) p c, nth_error l p = Some c -> skipn p l = c :: skipn (S p) l.
Proof.
  induction l as [|x l IH]; intros [|p] c H; cbn in *; try discriminate; [congruence|]. apply IH. exact H.
Qed.
Lemma over_str : forall str p0 p q, match_str (get_of inp) str p0 p = inl q ->
  q = p + List.length str /\ skipn p inp = str ++ skipn q inp.
Proof.
  induction str as [|c str IH]; intros p0 p q H; cbn [match_str] in H.
  - injection H as <-. split; cbn; [lia|reflexivity].
  - unfold get_of at 1 in H. destruct (nth_error inp p) as [c'|] eqn:E; [|discriminate].
    destruct (beq c c') eqn:Eb; [|discriminate]. apply Ascii.eqb_eq in Eb. subst c'.
    destruct (IH _ _ _ H) as [-> H2]. split; [cbn; lia|]. cbn [app].
    rewrite (skipn_S _ _ _ E). f_equal. exact H2.
Qed.
Lemma run_str : forall n str s s', runc n (PStr str) s = ROk s' -> over s s' str /\ thunks s' = thunks s.
Proof.
  intros [|n] str s s' H; [discriminate|]. cbn [Peg.run] in H.
  destruct (match_str (get_of inp) str (pos s) (pos s)) as [q|q] eqn:E; [|discriminate]. injection H as <-.
  apply over_str in E. split; [exact E|reflexivity].
Qed.
Lemma run_char : forall n c s s', runc n (PChar c) s = ROk s' -> over s s' [c] /\ thunks s' = thunks s.
Proof.
  intros [|n] c s s' H; [discriminate|]. cbn [Peg.run] in H. unfold get_of in H.
  destruct (nth_error inp (pos s)) as [c'|] eqn:E; [|discriminate].
  destruct (beq c c') eqn:Eb; [|discriminate]. apply Ascii.eqb_eq in Eb. subst c'. injection H as <-.
  split; [|reflexivity]. split; cbn; [lia|]. apply skipn_S. exact E.
Qed.
Lemma run_seq : forall n e1 e2 s s', runc n (e1 ⋅ e2) s = ROk s' ->
  exists m s1, m < n /\ runc m e1 s = ROk s1 /\ runc m e2 s1 = ROk s'.
Proof.
  intros [|n] e1 e2 s s' H; [discriminate|]. cbn [Peg.run] in H. destruct (runc n e1 s) as [s1| | |] eqn:E; try discriminate.
  exists n, s1. auto.
Qed.
Lemma run_alt : forall n e1 e2 s s', runc n (e1 ∥ e2) s = ROk s' ->
  exists m, m < n /\ (runc m e1 s = ROk s' \/ exists s1, runc m e1 s = RFail s1 /\ runc m e2 (restore s s1) = ROk s').
Proof.
  intros [|n] e1 e2 s s' H; [discriminate|]. cbn [Peg.run] in H. exists n. split; [lia|].
  destruct (runc n e1 s) as [s1|s1| |] eqn:E; try discriminate; [left; congruence|right; eauto].
Qed.
Lemma run_rule : forall n r s s', runc n (PRule r) s = ROk s' -> exists m, m < n /\ runc m (CG r) s = ROk s'.
Proof.
  intros [|n] r s s' H; [discriminate|]. cbn [Peg.run] in H. exists n. split; [lia|].
  destruct (runc n (CG r) s); try discriminate. exact H.
Qed.
Lemma run_act : forall n a s s', runc n (PAct a) s = ROk s' -> pos s' = pos s /\ thunks s' = (a, pos s) :: thunks s.
Proof. intros [|n] a s s' H; [discriminate|]. cbn [Peg.run] in H. injection H as <-. auto. Qed.
Lemma run_pdo : forall n a s s', runc n (PPred (QDo a)) s = ROk s' -> pos s' = pos s /\ thunks s' = (a, pos s) :: thunks s.
Proof. intros [|n] a s s' H; [discriminate|]. cbn in H. injection H as <-. auto. Qed.

Lemma run_eol : forall n s s', runc n (PRule R_EOL) s = ROk s' ->
  exists t, over s s' t /\ (t = [NL] \/ t = [CR; NL]) /\ thunks s' = thunks s.
Proof.
  intros n s s' H. apply run_rule in H. destruct H as [m [_ H]].
  change (CG R_EOL) with ((PChar "010"%char ∥ PStr ["013"%char; "010"%char]) ⋅ (PRule R__line_start_ : cexp)) in H.
  apply run_seq in H. destruct H as [m1 [s1 [_ [H1 H2]]]].
  apply run_rule in H2. destruct H2 as [m2 [_ H2]]. change (CG R__line_start_) with (PPred QLineStart : cexp) in H2.
  destruct m2 as [|m2]; [discriminate|]. cbn in H2. injection H2 as <-.
  assert (exists t, over s s1 t /\ (t = [NL] \/ t = [CR; NL]) /\ thunks s1 = thunks s) as (t & T1 & T2 & T3).
  { apply run_alt in H1. destruct H1 as [m3 [_ [H1|[s2 [_ H1]]]]].
    - apply run_char in H1. destruct H1 as [O T]. exists [NL]. auto.
    - apply run_str in H1. destruct H1 as [O T]. exists [CR; NL]. auto. }
  exists t. auto.
Qed.
Lemma eol_blank : forall t, t = [NL] \/ t = [CR; NL] -> all_blank t.
Proof.
  intros t [-> | ->]; unfold all_blank; repeat apply Forall_cons; try apply Forall_nil; unfold is_blank; auto.
Qed.

Lemma run_ws : forall n s s', runc n (PRule R_WS) s = ROk s' ->
  exists t, over s s' t /\ all_blank t /\ thunks s' = thunks s.
Proof.
  intros n s s' H. apply run_rule in H. destruct H as [m [_ H]].
  change (CG R_WS) with ((PRule R_HWS : cexp) ∥ PRule R_EOL) in H.
  apply run_alt in H. destruct H as [m1 [_ [H|[s1 [_ H]]]]].
  - apply run_rule in H. destruct H as [m2 [_ H]]. change (CG R_HWS) with (PClass [" "%char; "009"%char] : cexp) in H.
    destruct m2 as [|m2]; [discriminate|]. cbn [Peg.run] in H. unfold get_of in H.
    destruct (nth_error inp (pos s)) as [c|] eqn:E; [|discriminate].
    destruct (in_class _ c) eqn:Ec; [|discriminate]. injection H as <-. exists [c]. split.
    + split; cbn; [lia|]. apply skipn_S. exact E.
    + split; [|reflexivity]. constructor; [|constructor]. unfold in_class in Ec. cbn in Ec. unfold is_blank.
      apply orb_prop in Ec. destruct Ec as [Ec|Ec]; [apply Ascii.eqb_eq in Ec; auto|].
      apply orb_prop in Ec. destruct Ec as [Ec|Ec]; [apply Ascii.eqb_eq in Ec; auto|discriminate].
  - apply run_eol in H. destruct H as (t & T1 & T2 & T3). exists t. split; [exact T1|]. split; [apply eol_blank; exact T2|exact T3].
Qed.

Lemma run_no_eol : forall n s, pos s <= List.length inp ->
  match runc n (PRule R_EOL) s with RFail _ => nth_error inp (pos s) <> Some NL | _ => True end.
Proof.
  intros n s Hp. destruct (runc n (PRule R_EOL) s) as [|s1| |] eqn:E; auto. intros Hn.
  destruct n as [|n]; [discriminate|]. cbn [Peg.run] in E. 
  change (CG R_EOL) with ((PChar "010"%char ∥ PStr ["013"%char; "010"%char]) ⋅ (PRule R__line_start_ : cexp)) in E.
  destruct n as [|n]; [discriminate|]. cbn [Peg.run] in E.
  destruct n as [|n]; [discriminate|]. cbn [Peg.run] in E.
  destruct n as [|n]; [discriminate|]. cbn [Peg.run] in E. unfold get_of at 1 in E. rewrite Hn in E. cbn in E.
  destruct n as [|n]; [discriminate|]. cbn [Peg.run] in E. discriminate.
Qed.

(** the body of a line comment has no newline *)
Lemma run_line : forall n s s', pos s <= List.length inp ->
  runc n (PStar (PNot (PRule R_EOL) ⋅ PDot)) s = ROk s' ->
  exists t, over s s' t /\ ~ In NL t /\ thunks s' = thunks s.
Proof.
  induction n as [n IH] using lt_wf_ind. intros s s' Hp H. destruct n as [|n]; [discriminate|]. cbn [Peg.run] in H.
  destruct (runc n (PNot (PRule R_EOL) ⋅ PDot) s) as [s1|s1| |] eqn:E; try discriminate.
  - apply run_seq in E. destruct E as [m [s2 [_ [E1 E2]]]]. destruct m as [|m]; [discriminate|]. cbn [Peg.run] in E1.
    pose proof (run_no_eol m s Hp) as HN.
    destruct (runc m (PRule R_EOL) s) as [|s3| |]; try discriminate. injection E1 as <-. cbn [Peg.run restore pos] in E2.
    unfold get_of in E2. destruct (nth_error inp (pos s)) as [c|] eqn:Ec; [|discriminate]. injection E2 as <-.
    assert (over s (advance (restore s s3)) [c]) as O1 by (split; cbn; [lia|apply skipn_S; exact Ec]).
    assert (pos (advance (restore s s3)) <= List.length inp) as Hp1.
    { cbn. apply nth_error_Some. congruence. }
    destruct (IH n (Nat.lt_succ_diag_r n) _ _ Hp1 H) as (t & T1 & T2 & T3). exists (c :: t). split; [apply (over_app _ _ _ [c] t O1 T1)|].
    split; [|exact T3]. intros [->|Hi]; [apply HN; reflexivity|contradiction].
  - injection H as <-. exists []. split; [apply over_nil; reflexivity|]. split; [auto|reflexivity].
Qed.

(** a comment: how it begins, and how it ends *)
Definition opens (t : bytes) : Prop := exists u, t = B "//" ++ u \/ t = B "/*" ++ u.
Definition closes (t : bytes) : Prop :=
  exists u, t = u ++ B "*/" \/ exists v, ~ In NL v /\ t = u ++ B "//" ++ v ++ [NL].

Lemma run_comment : forall n s s', pos s <= List.length inp -> runc n (PRule R_comment) s = ROk s' ->
  exists t, over s s' t /\ opens t /\ (closes t \/ List.length inp <= pos s').
Proof.
  intros n s s' Hp H. apply run_rule in H. destruct H as [m [_ H]].
  change (CG R_comment) with ((PRule R_line_comment : cexp) ∥ PRule R_block_comment) in H.
  apply run_alt in H. destruct H as [m1 [_ [H|[s1 [_ H]]]]].
  - apply run_rule in H. destruct H as [m2 [_ H]].
    change (CG R_line_comment) with (PStr (B "//") ⋅ PPred (QDo TBlockStart) ⋅ PStar (PNot (PRule R_EOL) ⋅ PDot) ⋅
      PPred (QDo TBlockEnd) ⋅ PAct (TDo [SDrop (RMk K_line_comment [])]) ⋅ (PRule R_EOL ∥ PRule R_EOF)) in H.
    apply run_seq in H. destruct H as [m3 [sa [_ [Ha H]]]]. apply run_str in Ha. destruct Ha as [Oa _].
    apply run_seq in H. destruct H as [m4 [sb [_ [Hb H]]]]. apply run_pdo in Hb. destruct Hb as [Ob _].
    apply run_seq in H. destruct H as [m5 [sc [_ [Hc H]]]].
    assert (pos sb <= List.length inp) as Hpb.
    { destruct Oa as [A1 A2]. rewrite Ob, A1. pose proof (f_equal (@List.length _) A2) as L.
      rewrite app_length, !skipn_length in L. cbn in L |- *. lia. }
    destruct (run_line _ _ _ Hpb Hc) as (t & T1 & T2 & T3).
    apply run_seq in H. destruct H as [m6 [sd [_ [Hd H]]]]. apply run_pdo in Hd. destruct Hd as [Od _].
    apply run_seq in H. destruct H as [m7 [se [_ [He H]]]]. apply run_act in He. destruct He as [Oe _].
    assert (over s se (B "//" ++ t)) as Ose.
    { apply (over_app s sa se); [exact Oa|]. destruct T1 as [T1a T1b]. split; [lia|]. rewrite <- Ob, T1b. f_equal. f_equal. lia. }
    apply run_alt in H. destruct H as [m8 [_ [H|[s2 [_ H]]]]].
    + apply run_eol in H. destruct H as (w & W1 & W2 & W3).
      exists ((B "//" ++ t) ++ w). split; [apply (over_app s se s'); auto|]. split; [exists (t ++ w); left; rewrite app_assoc; reflexivity|].
      left. exists []. right. destruct W2 as [-> | ->].
      * exists t. split; [exact T2|]. cbn [app]. rewrite <- app_assoc. reflexivity.
      * exists (t ++ [CR]). split; [|cbn [app]; rewrite <- !app_assoc; reflexivity].
        rewrite in_app_iff. intros [Hi|[Hi|[]]]; [contradiction|discriminate Hi].
    + apply run_rule in H. destruct H as [m9 [_ H]]. change (CG R_EOF) with (PNot (PDot : cexp) ⋅ PAct (TDo [SEof])) in H.
      apply run_seq in H. destruct H as [m10 [s3 [_ [H Hx]]]]. apply run_act in Hx. destruct Hx as [Ox _].
      destruct m10 as [|m10]; [discriminate|]. cbn [Peg.run] in H. destruct m10 as [|m10]; [discriminate|]. cbn [Peg.run restore pos] in H.
      unfold get_of in H. destruct (nth_error inp (pos se)) eqn:En; [discriminate|]. injection H as <-. cbn in Ox.
      exists (B "//" ++ t). split; [split; [rewrite Ox; apply Ose|rewrite Ox; apply Ose]|]. split; [exists t; auto|].
      right. rewrite Ox. apply nth_error_None. exact En.
  - apply run_rule in H. destruct H as [m2 [_ H]].
    change (CG R_block_comment) with (PStr (B "/*") ⋅ PPred (QDo TBlockStart) ⋅ PStar (PRule R_EOL ∥ PNot (PStr (B "*/")) ⋅
      PDot) ⋅ PPred (QDo TBlockEnd) ⋅ PAct (TDo [SDrop (RMk K_block_comment [])]) ⋅ PErr (PStr (B "*/")) (QErr (B "*/"))) in H.
    apply run_seq in H. destruct H as [m3 [sa [_ [Ha H]]]]. apply run_str in Ha. destruct Ha as [Oa _].
    apply run_seq in H. destruct H as [m4 [sb [_ [Hb H]]]]. apply run_pdo in Hb. destruct Hb as [Ob _].
    apply run_seq in H. destruct H as [m5 [sc [_ [Hc H]]]].
    assert (pos sb <= List.length inp) as Hpb.
    { destruct Oa as [A1 A2]. rewrite Ob, A1. pose proof (f_equal (@List.length _) A2) as L.
      rewrite app_length, !skipn_length in L. cbn in L |- *. lia. }
    destruct (over_any _ _ _ _ Hpb Hc) as (t & T1).
    apply run_seq in H. destruct H as [m6 [sd [_ [Hd H]]]]. apply run_pdo in Hd. destruct Hd as [Od _].
    apply run_seq in H. destruct H as [m7 [se [_ [He H]]]]. apply run_act in He. destruct He as [Oe _].
    assert (over s se (B "/*" ++ t)) as Ose.
    { apply (over_app s sa se); [exact Oa|]. destruct T1 as [T1a T1b]. split; [lia|]. rewrite <- Ob, T1b. f_equal. f_equal. lia. }
    assert (over se s' (B "*/")) as Oz.
    { destruct m7 as [|m7]; [discriminate|]. cbn [Peg.run] in H. destruct (runc m7 (PStr (B "*/")) se) as [sz|sz| |] eqn:Ez; try discriminate.
      - injection H as <-. apply run_str in Ez. apply Ez.
      - destruct (run_pred _ _ _ sz); discriminate. }
    exists ((B "/*" ++ t) ++ B "*/"). split; [apply (over_app s se s'); auto|].
    split; [exists (t ++ B "*/"); right; rewrite app_assoc; reflexivity|]. left. exists (B "/*" ++ t). auto.
Qed.

(** white space and comments: no comment, or a first and a last one *)
Definition around (t : bytes) : Prop :=
  (exists w u, t = w ++ u /\ all_blank w /\ opens u).
Definition before (t : bytes) : Prop :=
  (exists u w, t = u ++ w /\ all_blank w /\ closes u).

Lemma run_sp : forall n s s', pos s <= List.length inp ->
  runc n (PStar ((PRule R_WS : cexp) ∥ PRule R_comment)) s = ROk s' ->
  exists t, over s s' t /\
    (thunks s' = thunks s /\ all_blank t \/ around t /\ (before t \/ List.length inp <= pos s')).
Proof.
  induction n as [n IH] using lt_wf_ind. intros s s' Hp H. destruct n as [|n]; [discriminate|]. cbn [Peg.run] in H.
  destruct (runc n ((PRule R_WS : cexp) ∥ PRule R_comment) s) as [s1|s1| |] eqn:E; try discriminate.
  - pose proof (match_bound col off inp _ _ _ _ Hp E) as Hp1.
    destruct (IH n (Nat.lt_succ_diag_r n) _ _ Hp1 H) as (t & T1 & T2).
    apply run_alt in E. destruct E as [m [_ [E|[s2 [_ E]]]]].
    + apply run_ws in E. destruct E as (w & W1 & W2 & W3). exists (w ++ t). split; [apply (over_app s s1 s'); auto|].
      destruct T2 as [[T2 T3]|[(w2 & u & -> & A2 & A3) T2]].
      * left. split; [congruence|]. apply Forall_app. auto.
      * right. split.
        { exists (w ++ w2), u. split; [apply app_assoc|]. split; [apply Forall_app; auto|auto]. }
        { destruct T2 as [(u' & w' & E' & B2 & B3)|T2]; [left|auto]. exists (w ++ u'), w'. rewrite E', app_assoc.
          split; [reflexivity|]. split; [auto|]. destruct B3 as [x [-> |[v [V1 ->]]]].
          - exists (w ++ x). left. apply app_assoc.
          - exists (w ++ x). right. exists v. split; [auto|]. rewrite app_assoc. reflexivity. }
    + apply run_comment in E; [|exact Hp]. destruct E as (c & C1 & C2 & C3). cbn [restore pos] in C1.
      exists (c ++ t). split; [apply (over_app s s1 s'); [exact C1|auto]|]. right. split.
      { exists [], (c ++ t). split; [reflexivity|]. split; [constructor|]. destruct C2 as [x [-> | ->]]; exists (x ++ t); [left|right]; apply app_assoc_reverse || (rewrite app_assoc; reflexivity). }
      destruct C3 as [C3|C3].
      * destruct T2 as [[_ T3]|[_ [(u' & w' & E' & B2 & B3)|T2]]]; [left; exists c, t; auto| |auto].
        left. exists (c ++ u'), w'. rewrite E', app_assoc. split; [reflexivity|]. split; [auto|].
        destruct B3 as [x [-> |[v [V1 ->]]]].
        { exists (c ++ x). left. apply app_assoc. }
        { exists (c ++ x). right. exists v. split; [auto|]. rewrite app_assoc. reflexivity. }
      * right. destruct T1 as [T1 _]. lia.
  - injection H as <-. exists []. split; [apply over_nil; reflexivity|]. left. split; [reflexivity|constructor].
Qed.

Lemma run_dot : forall n s s', runc n (PRule R_DOT) s = ROk s' -> over s s' (B ".") /\ thunks s' = thunks s.
Proof.
  intros n s s' H. apply run_rule in H. destruct H as [m [_ H]].
  change (CG R_DOT) with (PErr (PChar "."%char) (QErr (B "'.'")) : cexp) in H.
  destruct m as [|m]; [discriminate|]. cbn [Peg.run] in H. destruct (runc m (PChar "."%char) s) as [s1|s1| |] eqn:E; try discriminate.
  - injection H as <-. apply run_char in E. exact E.
  - destruct (run_pred _ _ _ s1); discriminate.
Qed.

Lemma over_whole : forall s s' t, over s s' t -> exists a, inp = a ++ t ++ skipn (pos s') inp.
Proof. intros s s' t [_ H]. exists (firstn (pos s) inp). rewrite <- H. symmetry. apply firstn_skipn. Qed.

(** around a dot, given that there is no comment beside one *)
Lemma run_around : forall n1 n2 n3 s s1 s2 s3, ~ comment_beside_dot inp -> pos s <= List.length inp ->
  runc n1 (PRule R_sp) s = ROk s1 -> runc n2 (PRule R_DOT) s1 = ROk s2 -> runc n3 (PRule R_sp) s2 = ROk s3 ->
  thunks s3 = thunks s.
Proof.
  intros n1 n2 n3 s s1 s2 s3 HN Hp H1 H2 H3.
  pose proof (match_bound col off inp _ _ _ _ Hp H1) as Hp1. pose proof (match_bound col off inp _ _ _ _ Hp1 H2) as Hp2.
  apply run_rule in H1. destruct H1 as [m1 [_ H1]]. apply run_rule in H3. destruct H3 as [m3 [_ H3]].
  apply run_sp in H1; [|exact Hp]. apply run_sp in H3; [|exact Hp2]. apply run_dot in H2. destruct H2 as [D1 D2].
  destruct H1 as (t & T1 & T2), H3 as (u & U1 & U2).
  assert (pos s1 < List.length inp) as Hlt.
  { destruct D1 as [D1 _]. cbn in D1. lia. }
  destruct T2 as [[T2 _]|[_ [(x & w & -> & X1 & X2)|T2]]]; [| |lia].
  - destruct U2 as [[U2 _]|[(w & x & -> & X1 & X2) _]]; [congruence|]. exfalso. apply HN.
    destruct (over_whole _ _ _ (over_app _ _ _ _ _ D1 U1)) as [a Ha].
    destruct X2 as [y [-> | ->]].
    + exists a, w, (y ++ skipn (pos s3) inp). split; [exact X1|]. left. rewrite Ha at 1. rewrite <- !app_assoc. reflexivity.
    + exists a, w, (y ++ skipn (pos s3) inp). split; [exact X1|]. right. left. rewrite Ha at 1. rewrite <- !app_assoc. reflexivity.
  - exfalso. apply HN. destruct (over_whole _ _ _ (over_app _ _ _ _ _ T1 D1)) as [a Ha].
    destruct X2 as [y [-> |[v [V1 ->]]]].
    + exists (a ++ y), w, (skipn (pos s2) inp). split; [exact X1|]. right. right. left. rewrite Ha at 1. rewrite <- !app_assoc. reflexivity.
    + exists (a ++ y), w, (skipn (pos s2) inp). split; [exact X1|]. right. right. right. exists v. split; [exact V1|].
      rewrite Ha at 1. rewrite <- !app_assoc. reflexivity.
Qed.

(** the loop of a dotted name *)
Definition dots : cexp := PRule R_symbolic_name ⋅ PRule R_sp ⋅ PRule R_DOT ⋅ PRule R_sp ⋅ PAct (TDo [SStrAppend (B ".")]).
Definition dots' : cexp := PRule R_symbolic_name ⋅ PStar (PRule R_WS) ⋅ PRule R_DOT ⋅ PStar (PRule R_WS) ⋅ PAct (TDo [SStrAppend (B ".")]).

Lemma em_DOT : emits GD (PRule R_DOT) [].
Proof. apply em_rule. apply em_err. apply em_char. Qed.

Lemma run_dots : forall n s s', ~ comment_beside_dot inp ->
  (forall m e s s', m <= n -> runc m e s = ROk s' -> leaves GD e s s') ->
  runc n dots s = ROk s' -> leaves GD dots' s s'.
Proof.
  intros n s s' HN IH H. unfold dots in H.
  apply run_seq in H. destruct H as [m1 [s1 [L1 [H1 H]]]].
  apply run_seq in H. destruct H as [m2 [s2 [L2 [H2 H]]]].
  apply run_seq in H. destruct H as [m3 [s3 [L3 [H3 H]]]].
  apply run_seq in H. destruct H as [m4 [s4 [L4 [H4 H]]]].
  apply IH in H1; [|lia]. apply IH in H; [|lia].
  assert (thunks s4 = thunks s1) as HT.
  { eapply run_around; [exact HN| |exact H2|exact H3|exact H4].
    pose proof (run_ok_pos _ _ _ _ _ _ _ H2). pose proof (run_dot _ _ _ H3) as [[D1 D2] _].
    pose proof (f_equal (@List.length _) D2) as L. rewrite app_length, !skipn_length in L. cbn in L. lia. }
  destruct H1 as [l1 [A1 A2]]. destruct H as [l2 [B1 B2]]. exists (l1 ++ l2). split.
  - apply em_seq; [exact A1|]. apply (em_seq _ _ _ [] l2); [constructor|]. apply (em_seq _ _ _ [] l2); [apply em_DOT|].
    apply (em_seq _ _ _ [] l2); [constructor|exact B1].
  - rewrite B2, HT, A2, rev_app_distr, app_assoc. reflexivity.
Qed.

Lemma run_dots_star : forall n s s', ~ comment_beside_dot inp ->
  (forall m e s s', m <= n -> runc m e s = ROk s' -> leaves GD e s s') ->
  runc n (PStar dots) s = ROk s' -> leaves GD (PStar dots') s s'.
Proof.
  induction n as [|n IHn]; intros s s' HN IH H; [discriminate|]. cbn [Peg.run] in H.
  assert (IH' : forall m e s s', m <= n -> runc m e s = ROk s' -> leaves GD e s s') by (intros m e t t' Hm; apply (IH m); lia).
  destruct (runc n dots s) as [s1|s1| |] eqn:E; try discriminate.
  - apply run_dots in E; auto. apply IHn in H; auto. eapply leaves_seq; [exact E|exact H|].
    intros l1 l2 X Y. apply em_star; auto.
  - injection H as <-. apply leaves_nil; [constructor|reflexivity].
Qed.

Lemma run_dotted : forall n lbl c s s', ~ comment_beside_dot inp ->
  (forall m e s s', m <= n -> runc m e s = ROk s' -> leaves GD e s s') ->
  runc n (PPred (QDo TBlockStart) ⋅ PAct (TDo [SStrReset]) ⋅ PErr (PStar dots ⋅ PRule R_symbolic_name) (QErr lbl) ⋅
    PPred (QDo TBlockEnd) ⋅ PAct (TDo [SLet LRet (RMk c [])]) ⋅ PRule R_sp) s = ROk s' ->
  leaves GD (dotted lbl c) s s'.
Proof.
  intros n lbl c s s' HN IH H.
  apply run_seq in H. destruct H as [m1 [s1 [L1 [H1 H]]]].
  apply run_seq in H. destruct H as [m2 [s2 [L2 [H2 H]]]].
  apply run_seq in H. destruct H as [m3 [s3 [L3 [H3 H]]]].
  apply IH in H1; [|lia]. apply IH in H2; [|lia]. apply IH in H; [|lia].
  assert (leaves GD (PErr (PStar dots' ⋅ PRule R_symbolic_name) (QErr lbl)) s2 s3) as HM.
  { destruct m3 as [|m3]; [discriminate|]. cbn [Peg.run] in H3.
    destruct (runc m3 (PStar dots ⋅ PRule R_symbolic_name) s2) as [sx|sx| |] eqn:E; try discriminate.
    - injection H3 as <-. apply run_seq in E. destruct E as [m4 [s4 [L4 [E1 E2]]]].
      apply run_dots_star in E1; [|exact HN|intros m e t t' Hm; apply (IH m); lia]. apply IH in E2; [|lia].
      eapply leaves_seq; [exact E1|exact E2|]. intros. apply em_err. apply em_seq; auto.
    - destruct (run_pred _ _ _ sx); discriminate. }
  unfold dotted. fold dots'.
  eapply leaves_seq; [exact H1| |intros; apply em_seq; eauto].
  eapply leaves_seq; [exact H2| |intros; apply em_seq; eauto].
  eapply leaves_seq; [exact HM|exact H|intros; apply em_seq; auto].
Qed.

Lemma adapted_GD : ~ comment_beside_dot inp -> adapted col off inp GD.
Proof.
  intros HN n r s s' IH H.
  assert (HD : r = R_function_name \/ r = R_proc_name \/ GD r = CG r) by (destruct r; auto).
  destruct HD as [-> |[-> |HD]].
  - apply run_dotted with (n := n); auto.
  - apply run_dotted with (n := n); auto.
  - rewrite HD. exact (IH n _ _ _ (le_n _) H).
Qed.
End Dot.

(** ** The tables *)
Definition no_table : list (option aenv) := repeat None (List.length all_rules).
Definition table : list (option aenv) := Eval vm_compute in rounds 24 false CG no_table.
Definition tableD : list (option aenv) := Eval vm_compute in rounds 24 true GD no_table.

Lemma table_checked : checked false CG table = true.
Proof. vm_compute. reflexivity. Qed.
Lemma tableD_checked : checked true GD tableD = true.
Proof. vm_compute. reflexivity. Qed.

(** the types of the result of each entry rule *)
Definition result_types (fl : pflags) : tset :=
  if pf_only_statements fl then tone T_STATEMENT else tunion (tone T_STATEMENT) (tone T_COMMAND).
Lemma table_ends : forall fl, ends table (start_rule fl) (result_types fl) = true.
Proof. intros [s []]; vm_compute; reflexivity. Qed.
Lemma tableD_ends : forall fl, ends tableD (start_rule fl) (result_types fl) = true.
Proof. intros [s []]; vm_compute; reflexivity. Qed.

(** ** Whole parses *)
Lemma parse_each_safe : forall cf la cb fl inp,
  parse_each cf la cb fl inp <> PInvalid /\ parse_each cf la cb fl inp <> PUninit.
Proof.
  intros. rewrite parse_each_eq. apply ploop_safe. intros i y.
  pose proof (round_safe cf la (start_rule fl) i y CG table (result_types fl) (start_entry fl)
    (adapted_CG _ _ _) table_checked (table_ends fl)) as H.
  destruct (parse_one cf la (start_rule fl) i y); auto.
Qed.

Lemma beside_skipn : forall s p, ~ comment_beside_dot s -> ~ comment_beside_dot (skipn p s).
Proof.
  intros s p H [a [w [b [H1 H2]]]]. apply H. exists (firstn p s ++ a), w, b. split; [exact H1|].
  assert (K : forall x, skipn p s = a ++ x -> s = (firstn p s ++ a) ++ x).
  { intros x Hx. rewrite <- app_assoc, <- Hx. symmetry. apply firstn_skipn. }
  destruct H2 as [H2|[H2|[H2|[t [H2 H3]]]]]; auto.
  right. right. right. exists t. auto.
Qed.

Lemma bq_of : forall inp, no_newline_in_names inp -> bq_ok inp.
Proof.
  intros inp H p q Hp Hlt Hq. apply nth_error_split in Hp. destruct Hp as [l1 [l2 [E1 E2]]]. subst inp.
  rewrite nth_error_app2 in Hq by lia. destruct (q - List.length l1) as [|k] eqn:Ek; [lia|]. cbn in Hq.
  apply nth_error_split in Hq. destruct Hq as [m1 [m2 [E3 _]]]. subst l2. exact (H l1 m1 m2 eq_refl).
Qed.

Lemma parse_each_returns : forall cf la cb fl inp,
  no_newline_in_names inp -> ~ comment_beside_dot inp -> (forall s p, List.length s <= la s p) ->
  exists ret segs last, parse_each cf la cb fl inp = PRet ret segs last.
Proof.
  intros cf la cb fl inp H1 H2 Hla. rewrite parse_each_eq.
  apply ploop_strict with (P := fun s => bq_ok s /\ ~ comment_beside_dot s); auto.
  - intros s p [A1 A2]. split; [apply bq_ok_skipn; exact A1|apply beside_skipn; exact A2].
  - intros i y [A1 A2] Hq Hne.
    pose proof (round_strict cf la (start_rule fl) i y GD tableD (result_types fl) (start_entry fl) A1 Hq Hne (Hla i)
      (adapted_GD _ _ _ A2) tableD_checked (tableD_ends fl)) as H.
    destruct (parse_one cf la (start_rule fl) i y); auto.
  - split; [apply bq_of; exact H1|exact H2].
  - apply quiet_0.
Qed.
