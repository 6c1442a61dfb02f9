(** * Proofs about cypher-lint *)
From Coq Require Import List Bool Arith ZArith Ascii String Lia.
From Verif Require Import Peg PegProofs QuickModel ErrModel CypherSyntax CypherGrammar OperModel CypherMatch AstTypes
  AstModel CypherExec CypherParse CypherRound CypherSpec CypherLoop CypherChain SourceModel SourceProofs DetailModel
  PrintModel PrintSpec AstSpec SafeSpec SafeNodes AccessSpec PropAccess LintModel LintSpec.
Import ListNotations.

Opaque parse_one cfuel.
Local Strategy expand [crun].

(** ** Errors are complete: they have a context and a message without NUL *)
Definition nul_free (s : bytes) : Prop := ~ In "000"%char s.
Definition nul_freeb (s : bytes) : bool := forallb (fun c => negb (Ascii.eqb c "000"%char)) s.

Lemma nul_freeb_ok : forall s, nul_freeb s = true -> nul_free s.
Proof.
  intros s H I. unfold nul_freeb in H. rewrite forallb_forall in H. specialize (H _ I). discriminate H.
Qed.

Lemma nul_free_app : forall a b, nul_free a -> nul_free b -> nul_free (a ++ b).
Proof. intros a b H1 H2 I. apply in_app_or in I. destruct I; auto. Qed.

Fixpoint labels_free (e : cexp) : bool :=
  match e with
  | PDot | PChar _ | PStr _ | PClass _ | PRule _ | PAct _ => true
  | PSeq e1 e2 | PAlt e1 e2 => labels_free e1 && labels_free e2
  | PStar e | PPlus e | PQuery e | PAnd e | PNot e => labels_free e
  | PPred q => match q with QErr l => nul_freeb l | _ => true end
  | PErr e q => labels_free e && match q with QErr l => nul_freeb l | _ => true end
  end.

Lemma labels_free_ok : forall r, labels_free (CG r) = true.
Proof.
  intros r. assert (H : forallb (fun r => labels_free (CG r)) all_rules = true) by (vm_compute; reflexivity).
  rewrite forallb_forall in H. apply H, all_rules_complete.
Qed.

Definition color_free (col : coloring) : Prop :=
  nul_free (fst (col_error col)) /\ nul_free (snd (col_error col)) /\ nul_free (fst (col_token col)) /\
  nul_free (snd (col_token col)) /\ nul_free (fst (col_message col)) /\ nul_free (snd (col_message col)).

Definition clean (u : cuser) : Prop :=
  Forall nul_free (et_labels (c_et u)) /\
  Forall (fun e => pe_ctx e = None /\ nul_free (pe_msg e)) (et_errs (c_et u)).

Lemma write_labels_free : forall ls, Forall nul_free ls -> nul_free (write_labels ls).
Proof.
  induction 1 as [ | l ls H _ IH ]; cbn [write_labels]; [ intros [ ] | ].
  apply nul_free_app; [ apply nul_freeb_ok; reflexivity | ].
  apply nul_free_app; [ exact H | ]. apply nul_free_app; [ | exact IH ].
  destruct ls as [ | ? [ | ] ]; apply nul_freeb_ok; reflexivity.
Qed.

Lemma chardesc_free : forall c, nul_free (chardesc c).
Proof.
  intros c. apply nul_freeb_ok. destruct c as [ [ ] [ ] [ ] [ ] [ ] [ ] [ ] [ ] ]; vm_compute; reflexivity.
Qed.

Lemma report_free : forall col c ls, color_free col -> Forall nul_free ls -> nul_free (error_report col c ls).
Proof.
  intros col c ls (C1 & C2 & C3 & C4 & C5 & C6) H. unfold error_report, et_prefix.
  repeat (apply nul_free_app; try assumption);
    first [ apply nul_freeb_ok; reflexivity | apply chardesc_free | apply write_labels_free; exact H ].
Qed.

Lemma reify_clean : forall col u, color_free col -> clean u -> clean (set_et u (et_reify col (c_et u))).
Proof.
  intros col u Hc [ H1 H2 ]. unfold clean. cbn [c_et set_et]. unfold et_reify.
  destruct (et_labels (c_et u)) as [ | l ls ] eqn:E; cbn [et_labels et_errs]; [ rewrite E; split; assumption | ].
  split; [ constructor | ]. apply Forall_app. split; [ exact H2 | ].
  constructor; [ | constructor ]. split; [ reflexivity | ]. cbn [pe_msg]. apply report_free; assumption.
Qed.

Lemma note_clean : forall off p c l u u', nul_free l -> clean u -> do_err off p c l u = Some u' -> clean u'.
Proof.
  intros off p c l u u' Hl [ H1 H2 ] H. unfold do_err in H. destruct (input_position _ _ _); [ | discriminate ].
  destruct (et_note _ _ _ _) as [ t | ] eqn:E; [ | discriminate ]. injection H as <-.
  unfold clean. cbn [c_et set_et set_lines].
  unfold et_note in E. destruct (_ || _); [ injection E as <-; split; assumption | ].
  match type of E with context [et_labels (if ?b then ?x else ?y)] => set (e1 := if b then x else y) in E end.
  assert (K : Forall nul_free (et_labels e1) /\ et_errs e1 = et_errs (c_et u)).
  { subst e1. destruct (_ || _); cbn; auto. }
  destruct K as [ K1 K2 ]. clearbody e1.
  destruct (_ && _); [ discriminate | ]. destruct (existsb _ _); injection E as <-; cbn [et_labels et_errs]; rewrite K2.
  - auto.
  - split; [ | exact H2 ]. apply Forall_app. auto.
Qed.

Section Run.
Variables (col : coloring) (off : position) (inp : bytes).
Hypothesis Hcol : color_free col.

Lemma cprun_clean : forall q p c u b u' l, match q with QErr l => nul_freeb l | _ => true end = true ->
  cprun col off q p c u = Some (b, u', l) -> clean u -> clean u'.
Proof.
  intros q p c u b u' l Hq H Hu.
  destruct q; cbn [cprun] in H; try (destruct (c_op u); [ | discriminate ]); try (injection H; intros; subst; exact Hu).
  - injection H; intros; subst. apply reify_clean; assumption.
  - destruct (do_err _ _ _ _ _) as [ v | ] eqn:E; [ | discriminate ]. injection H; intros; subst.
    eapply note_clean; [ apply nul_freeb_ok; exact Hq | exact Hu | exact E ].
Qed.

Lemma run_clean : forall n e s, labels_free e = true -> clean (user s) ->
  match run CG (get_of inp) (cprun col off) n e s with ROk s' | RFail s' => clean (user s') | _ => True end.
Proof.
  assert (PR : forall q s, match q with QErr l => nul_freeb l | _ => true end = true -> clean (user s) ->
     match run_pred (get_of inp) (cprun col off) q s with ROk s' | RFail s' => clean (user s') | _ => True end).
  { intros q s Hq Hz. unfold run_pred. destruct (cprun col off q _ _ (user s)) as [ [ [ b u ] l ] | ] eqn:E; [ | exact I ].
    pose proof (cprun_clean _ _ _ _ _ _ _ Hq E Hz). destruct b; exact H. }
  induction n as [ | n IH ]; intros e s He Hz; [ exact I | ].
  destruct e; cbn [labels_free] in He; cbn [Peg.run]; try (apply andb_true_iff in He; destruct He as [ He1 He2 ]).
  - destruct (get_of inp (pos s)); auto.
  - destruct (get_of inp (pos s)); [ destruct (beq c a) | ]; auto.
  - destruct (match_str _ s0 (pos s) (pos s)); auto.
  - destruct (get_of inp (pos s)); [ destruct (in_class cs a) | ]; auto.
  - pose proof (IH (CG r) s (labels_free_ok r) Hz) as H. destruct (run _ _ _ n (CG r) s); auto.
  - pose proof (IH e1 s He1 Hz) as H. destruct (run _ _ _ n e1 s) as [ s1 | s1 | | ]; auto. apply (IH e2 s1 He2 H).
  - pose proof (IH e1 s He1 Hz) as H. destruct (run _ _ _ n e1 s) as [ s1 | s1 | | ]; auto. apply (IH e2 (restore s s1) He2 H).
  - pose proof (IH e s He Hz) as H. destruct (run _ _ _ n e s) as [ s1 | s1 | | ]; auto. apply (IH (PStar e) s1 He H).
  - pose proof (IH e s He Hz) as H. destruct (run _ _ _ n e s) as [ s1 | s1 | | ]; auto. apply (IH (PStar e) s1 He H).
  - pose proof (IH e s He Hz) as H. destruct (run _ _ _ n e s) as [ s1 | s1 | | ]; auto.
  - pose proof (IH e s He Hz) as H. destruct (run _ _ _ n e s) as [ s1 | s1 | | ]; auto.
  - pose proof (IH e s He Hz) as H. destruct (run _ _ _ n e s) as [ s1 | s1 | | ]; auto.
  - exact Hz.
  - apply PR; assumption.
  - pose proof (IH e s He1 Hz) as H. destruct (run _ _ _ n e s) as [ s1 | s1 | | ]; auto.
    pose proof (PR q s1 He2 H) as H2. destruct (run_pred _ _ q s1); auto.
Qed.
End Run.

(** an error with a context and a message that is a C string *)
Definition complete (e : perror) : Prop := pe_ctx e <> None /\ nul_free (pe_msg e).

Lemma round_complete : forall cf la r inp y p lines a u, color_free (cf_color cf) -> entry r -> quiet y ->
  parse_one cf la r inp y = RdOk p lines a u -> Forall complete (a_errs a).
Proof.
  intros cf la r inp y p lines a u Hc Hr [ Q1 Q2 ] H. rewrite parse_one_eq in H.
  apply finish_one_ok in H. destruct H as (s & Hx & -> & -> & -> & He & _).
  assert (C : clean (user s)).
  { pose proof (run_clean (cf_color cf) (y_off y) inp Hc (cfuel inp) (PRule r) (match_start y) eq_refl) as K.
    unfold crun in Hx. rewrite Hx in K. apply K. split; cbn; rewrite ?Q1, ?Q2; constructor. }
  destruct C as [ _ C ]. destruct (last_thunk _ _ _ _ _ _ _ Hr Hx) as [ ts Hts ].
  rewrite Hts in He. cbn [rev] in He.
  assert (N : Forall (fun x => pe_ctx x = None) (et_errs (c_et (user s))))
    by (eapply Forall_impl; [ | exact C ]; intros z [ Hz _ ]; exact Hz).
  eapply exec_errs_end in He; [ | exact N | reflexivity ]. rename He into F.
  clear - C F. cbn [a_errs] in F. induction F as [ | x x' l l' (F1 & F2 & c & F3 & _) _ IH ]; [ constructor | ].
  pose proof (Forall_inv C) as [ _ C1 ]. constructor; [ | apply IH; exact (Forall_inv_tail C) ].
  split; [ congruence | ]. rewrite F2. exact C1.
Qed.

Lemma chain_complete : forall cf la r inp o y segs c, color_free (cf_color cf) -> entry r ->
  chain cf la r inp o y segs c -> quiet y -> Forall complete (flat_map s_errors segs).
Proof.
  intros cf la r inp o y segs c Hc Hr H.
  assert (K : forall inp o y p a u en seg, produced cf la r inp o y p a u en seg -> quiet y -> Forall complete (s_errors seg)).
  { clear - Hc Hr. intros inp o y p a u en seg [ [ lines [ H _ ] ] _ _ _ -> ] Q. unfold round_segment.
    rewrite (proj1 (proj2 (make_segment_fields _ _ _ _ _ _))). eapply round_complete; eauto. }
  induction H as [ inp o y | o y | inp o y p a u en seg Hp He | inp o y p a u en seg segs c Hp He Hx IH ]; intros Q;
    cbn [flat_map]; try constructor.
  - rewrite app_nil_r. eauto.
  - apply Forall_app. split; [ eauto | apply IH, quiet_next ].
Qed.

Lemma parsed_complete : forall cf la cb fl inp ret segs last, color_free (cf_color cf) ->
  parse_each cf la cb fl inp = PRet ret segs last -> Forall complete (errors_of segs).
Proof.
  intros cf la cb fl inp ret segs last Hc H. apply parse_each_chain in H. destruct H as (c & H & _).
  exact (chain_complete _ _ _ _ _ _ _ _ Hc (start_entry fl) H (quiet_0 cf)).
Qed.

Lemma colors_free : forall c, color_free (colors c).
Proof.
  intros c. unfold colors. destruct (lc_color_err c); repeat split; apply nul_freeb_ok; reflexivity.
Qed.

(** ** Printing errors *)
Lemma stderr_app : forall a b, to_stderr (a ++ b) = to_stderr a ++ to_stderr b.
Proof. intros. apply flat_map_app. Qed.
Lemma stdout_app : forall a b, to_stdout (a ++ b) = to_stdout a ++ to_stdout b.
Proof. intros. apply flat_map_app. Qed.

Lemma cstr_c_string : forall s, cstr s = c_string s.
Proof. induction s as [ | c s IH ]; [ reflexivity | ]. cbn. unfold beq. rewrite IH. reflexivity. Qed.

Lemma padl_blanks : forall n, padl n (firstn n (B " ")) = blanks n.
Proof.
  intros [ | n ]; [ reflexivity | ]. unfold padl, blanks, PrintModel.spaces. cbn [firstn].
  change (B " ") with [" "%char]. cbn [firstn]. rewrite firstn_nil. cbn [List.length]. rewrite Nat.sub_succ, Nat.sub_0_r.
  cbn [repeat]. symmetry. apply repeat_cons.
Qed.

Definition shown (filename : option bytes) : bytes := match filename with Some f => f | None => B "<stdin>" end.

Lemma print_error_ok : forall f e, complete e -> exists l, print_error f e = Done l tt /\
  to_stderr l = report (shown f) e /\ to_stdout l = [].
Proof.
  intros f e [ H1 H2 ]. unfold print_error, report. destruct (pe_ctx e) as [ [ ctx o ] | ]; [ | congruence ].
  eexists. split; [ reflexivity | ]. split; [ | reflexivity ].
  cbn [to_stderr flat_map]. rewrite app_nil_r, padl_blanks, !cstr_c_string.
  rewrite (c_string_free (pe_msg e)) by exact H2. unfold shown, EOLN, NLb.
  repeat rewrite <- app_assoc. reflexivity.
Qed.

Lemma print_errors_ok : forall f es, Forall complete es -> exists l, print_errors f es = Done l (List.length es) /\
  to_stderr l = flat_map (report (shown f)) es /\ to_stdout l = [].
Proof.
  intros f es H. induction H as [ | e es He _ (l & IH1 & IH2 & IH3) ]; [ exists []; auto | ].
  destruct (print_error_ok f e He) as (l1 & P1 & P2 & P3). cbn [print_errors]. rewrite P1. cbn [lbind]. rewrite IH1.
  cbn [lbind]. eexists. split; [ reflexivity | ]. rewrite app_nil_r, stderr_app, stdout_app, P2, P3, IH2, IH3. auto.
Qed.

Section Lint.
Variable mem : memory.

Lemma callbacks_ok : forall c f segs n l m, Forall complete (errors_of segs) ->
  callbacks mem c f segs n = Done l m ->
  m = n + List.length (errors_of segs) /\ to_stderr l = flat_map (report (shown f)) (errors_of segs) /\
  (if lc_dump c then exists ts, Forall2 (fun s t => tree_text mem c (s_roots s) t) segs ts /\ to_stdout l = List.concat ts
   else to_stdout l = []).
Proof.
  intros c f segs. induction segs as [ | s segs IH ]; intros n l m Hc H.
  - injection H as <- <-. split; [ cbn; lia | ]. split; [ reflexivity | ]. destruct (lc_dump c); [ | reflexivity ].
    exists []. split; [ constructor | reflexivity ].
  - cbn [callbacks] in H. unfold errors_of in Hc. cbn [flat_map] in Hc. apply Forall_app in Hc. destruct Hc as [ C1 C2 ].
    unfold parse_callback in H. destruct (print_errors_ok f _ C1) as (l1 & P1 & P2 & P3). rewrite P1 in H. cbn [lbind] in H.
    unfold errors_of. cbn [flat_map]. rewrite app_length, flat_map_app. fold (errors_of segs).
    destruct (lc_dump c) eqn:D.
    + unfold print_ast in H. destruct (fprintv _ _ _ _ _ _ _) as [ t | ] eqn:T; [ | discriminate H ]. cbn [lbind app] in H.
      destruct (callbacks mem c f segs _) as [ l2 m2 | ] eqn:E; [ | discriminate H ]. injection H as <- <-.
      destruct (IH _ _ _ C2 E) as (I1 & I2 & I3). destruct I3 as (ts & I3 & I4).
      rewrite !stderr_app, !stdout_app, P2, P3, I2, I4. split; [ lia | ]. split; [ cbn; rewrite ?app_nil_r; reflexivity | ].
      exists (t :: ts). split; [ constructor; [ exact T | exact I3 ] | ]. cbn. rewrite ?app_nil_r. reflexivity.
    + cbn [lbind app] in H.
      destruct (callbacks mem c f segs _) as [ l2 m2 | ] eqn:E; [ | discriminate H ]. injection H as <- <-.
      destruct (IH _ _ _ C2 E) as (I1 & I2 & I3).
      rewrite !stderr_app, !stdout_app, P2, P3, I2, I3. split; [ lia | ]. split; cbn; rewrite ?app_nil_r; reflexivity.
Qed.

Lemma stream_parses : forall c input z segs last,
  cypher_fparse_each (parser_config c) (fun _ => 0%Z) (lc_flags c) input = PRet z segs last ->
  z = 0%Z /\ parses (colors c) (lc_flags c) input segs /\ Forall complete (errors_of segs).
Proof.
  intros c input z segs last H.
  destruct (stream_exact (parser_config c) (fun _ => 0%Z) (lc_flags c) input) as (la & _ & L). rewrite L in H.
  assert (Z0 : z = 0%Z).
  { pose proof H as K. apply parse_each_chain in K. destruct K as (ch & _ & _ & _ & _ & E). destruct segs; apply E. }
  subst z. split; [ reflexivity | ]. split; [ exists last; rewrite <- L in H; exact H | ].
  eapply parsed_complete; [ | exact H ]. apply colors_free.
Qed.

(** what process does when it returns *)
Lemma process_ok : forall c f input l res, process mem c f input = Done l res ->
  exists segs, parses (colors c) (lc_flags c) input segs /\
    res = (match errors_of segs with [] => 0 | _ => 1 end)%Z /\
    to_stderr l = flat_map (report (shown f)) (errors_of segs) /\
    (lc_dump c = false -> to_stdout l = []) /\
    (lc_dump c = true -> dump mem c f segs (to_stdout l)).
Proof.
  intros c f input l res H. unfold process in H. unfold dump. destruct (lc_stream c) eqn:S.
  - unfold process_streamed in H.
    destruct (cypher_fparse_each _ _ _ _) as [ z segs last | | | | | ] eqn:E; try discriminate H.
    destruct (stream_parses _ _ _ _ _ E) as (-> & P & C). exists segs. split; [ exact P | ].
    destruct (callbacks mem c f segs 0) as [ l1 n | ] eqn:K; [ | discriminate H ]. cbn [lbind] in H. injection H as <- <-.
    destruct (callbacks_ok _ _ _ _ _ _ C K) as (K1 & K2 & K3). rewrite app_nil_r.
    split; [ rewrite K1; destruct (errors_of segs); reflexivity | ]. split; [ exact K2 | ].
    split; intros D; rewrite D in K3; exact K3.
  - unfold process_all, cypher_fparse in H.
    destruct (cypher_fparse_each _ _ _ _) as [ z segs last | | | | | ] eqn:E; try discriminate H.
    destruct (stream_parses _ _ _ _ _ E) as (-> & P & C). exists segs. split; [ exact P | ].
    destruct (PropCypher.result_is_concatenation segs) as (R1 & R2 & _). cbv zeta in *.
    rewrite R1, R2 in H. fold (errors_of segs) in H.
    destruct (print_errors_ok f _ C) as (l1 & P1 & P2 & P3). rewrite P1 in H. cbn [lbind] in H.
    destruct (lc_dump c).
    + unfold print_ast in H. destruct (fprintv _ _ _ _ _ _ _) as [ t | ] eqn:T.
      * destruct f as [ f | ]; cbn [lbind] in H; injection H as <- <-; rewrite !stderr_app, !stdout_app, P2, P3;
          (split; [ reflexivity | ]; split; [ cbn; rewrite ?app_nil_r; reflexivity | ]; split; [ discriminate | ]; intros _;
           exists t; split; [ exact T | ]; cbn; rewrite ?app_nil_r; reflexivity).
      * destruct f; discriminate H.
    + cbn [lbind] in H. injection H as <- <-. rewrite !stderr_app, !stdout_app, P2, P3.
      split; [ reflexivity | ]. split; [ cbn; rewrite ?app_nil_r; reflexivity | ]. split; [ reflexivity | discriminate ].
Qed.


Lemma lor_status : forall err res, (0 <= err)%Z -> (res = 0 \/ res = 1)%Z -> (0 <= Z.lor err res)%Z /\
  (Z.lor err res = 0%Z <-> err = 0%Z /\ res = 0%Z).
Proof.
  intros err res H1 H2. split; [ apply Z.lor_nonneg; lia | ]. apply Z.lor_eq_0_iff.
Qed.

Lemma faultless_iff : forall c a input segs, arg_input a = Some input -> parses (colors c) (lc_flags c) input segs ->
  (faultless c a <-> errors_of segs = []).
Proof.
  intros c a input segs Ha (last & P). split.
  - intros (input' & segs' & Ha' & (last' & P') & E). rewrite Ha in Ha'. injection Ha' as <-.
    rewrite P in P'. injection P' as <- _. exact E.
  - intros E. exists input, segs. split; [ exact Ha | ]. split; [ exists last; exact P | exact E ].
Qed.

Lemma files_ok : forall prog c args err l st, (0 <= err)%Z -> process_files mem prog c args err = Done l st ->
  (st = 0 \/ st = 1) /\ (st = 0 <-> err = 0%Z /\ Forall (faultless c) args) /\
  reported prog c args (to_stderr l) /\ (lc_dump c = false -> to_stdout l = []) /\
  (lc_dump c = true -> dumps mem c true args (to_stdout l)).
Proof.
  intros prog c args. induction args as [ | a args IH ]; intros err l st Herr H.
  - injection H as <- <-. destruct (Z.eqb_spec err 0); (split; [ auto | ]);
      (split; [ | split; [ constructor | split; [ reflexivity | intros _; constructor ] ] ]);
      split; intros K; try lia; auto; try discriminate; try (destruct K; congruence).
  - assert (K : match a with AMissing name why => l = [Err (prog ++ B ": " ++ name ++ B ": " ++ why ++ EOLN)] /\ st = 1
       | AStdin s | AFile _ s => exists l1 res l2, process mem c (Some (arg_name a)) s = Done l1 res /\ l = l1 ++ l2 /\
           (if match a with AFile _ _ => (res <? 0)%Z | _ => false end then l2 = [] /\ st = 1
            else process_files mem prog c args (Z.lor err res) = Done l2 st) end).
    { destruct a as [ s | n s | n w ]; cbn [process_files arg_name] in H |- *.
      - destruct (process _ _ _ _) as [ l1 res | ]; [ | discriminate H ]. cbn [lbind] in H.
        destruct (process_files _ _ _ _ _) as [ l2 st2 | ] eqn:E; [ | discriminate H ]. injection H as <- <-.
        exists l1, res, l2. auto.
      - destruct (process _ _ _ _) as [ l1 res | ]; [ | discriminate H ]. cbn [lbind] in H.
        destruct (res <? 0)%Z eqn:N.
        + injection H as <- <-. exists l1, res, []. rewrite N. auto.
        + destruct (process_files mem prog c args (Z.lor err res)) as [ l2 st2 | ] eqn:E; [ | discriminate H ].
          injection H as <- <-. exists l1, res, l2. rewrite N. auto.
      - injection H as <- <-. auto. }
    clear H.
    assert (R : forall s l1 res l2, arg_input a = Some s -> process mem c (Some (arg_name a)) s = Done l1 res -> l = l1 ++ l2 ->
       (if match a with AFile _ _ => (res <? 0)%Z | _ => false end then l2 = [] /\ st = 1
        else process_files mem prog c args (Z.lor err res) = Done l2 st) ->
       (st = 0 \/ st = 1) /\ (st = 0 <-> err = 0%Z /\ Forall (faultless c) (a :: args)) /\
       reported prog c (a :: args) (to_stderr l) /\ (lc_dump c = false -> to_stdout l = []) /\
       (lc_dump c = true -> dumps mem c true (a :: args) (to_stdout l))).
    { intros s l1 res l2 Ha P -> Q. destruct (process_ok _ _ _ _ _ P) as (segs & S1 & S2 & S3 & S4 & S5).
      assert (Hres : (res = 0 \/ res = 1)%Z) by (rewrite S2; destruct (errors_of segs); auto).
      replace (match a with AFile _ _ => (res <? 0)%Z | _ => false end) with false in Q
        by (destruct a; destruct Hres as [ -> | -> ]; reflexivity).
      destruct (lor_status err res Herr Hres) as [ L1 L2 ].
      destruct (IH _ _ _ L1 Q) as (I1 & I2 & I3 & I4 & I5). split; [ exact I1 | ]. split; [ | split; [ | split ] ].
      - rewrite I2, L2. pose proof (faultless_iff c a s segs Ha S1) as F.
        assert (E : res = 0%Z <-> errors_of segs = []) by (rewrite S2; destruct (errors_of segs); split; congruence).
        rewrite E, <- F. split.
        + intros [ [ -> K1 ] K2 ]. auto.
        + intros [ -> K0 ]. pose proof (Forall_inv K0). pose proof (Forall_inv_tail K0). auto.
      - rewrite stderr_app, S3. econstructor; eauto.
      - intros D. rewrite stdout_app, S4, I4 by exact D. reflexivity.
      - intros D. rewrite stdout_app. econstructor; eauto. }
    destruct a as [ s | n s | n w ].
    + destruct K as (l1 & res & l2 & K1 & K2 & K3). eapply R; eauto. reflexivity.
    + destruct K as (l1 & res & l2 & K1 & K2 & K3). eapply R; eauto. reflexivity.
    + destruct K as [ -> -> ]. split; [ auto | ]. split; [ | split; [ | split; [ reflexivity | ] ] ].
      * split; [ discriminate | ]. intros [ _ K ]. apply Forall_inv in K. destruct K as (i & sg & K & _). discriminate K.
      * cbn. rewrite app_nil_r. constructor.
      * intros _. constructor.
Qed.

(** ** Options *)
Lemma options_ok : forall u v l c, options u v l c =
  match find ends_run l with
  | Some LHelp => inr ([Out u], 0)
  | Some LVersion => inr ([Out v], 0)
  | Some _ => inr ([Err u], 1)
  | None => inl (mklc (last_of (fun o => match o with LWidth n => Some n | _ => None end) (lc_width c) l)
       (mkpf (pf_single (lc_flags c) || given (fun o => match o with LSingle => true | _ => false end) l)
             (pf_only_statements (lc_flags c) || given (fun o => match o with LOnlyStatements => true | _ => false end) l))
       (lc_dump c || given (fun o => match o with LAst => true | _ => false end) l)
       (last_of (fun o => match o with LColor => Some true | LNoColor => Some false | _ => None end) (lc_color_out c) l)
       (last_of (fun o => match o with LColor => Some true | LNoColor => Some false | _ => None end) (lc_color_err c) l)
       (lc_stream c || given (fun o => match o with LStream => true | _ => false end) l))
  end.
Proof.
  intros u v. induction l as [ | o l IH ]; intros [ w [ si os ] d co ce st ].
  - cbn. rewrite !orb_false_r. reflexivity.
  - destruct o; cbn [options find ends_run]; try rewrite IH; try reflexivity;
      destruct (find ends_run l) as [ [ ] | ]; try reflexivity; cbn; rewrite ?orb_true_r; reflexivity.
Qed.

Lemma main_ok : forall prog u v to te opts args stdin,
  lint_main mem prog u v to te opts args stdin =
  match find ends_run opts with
  | Some LHelp => Done [Out u] 0
  | Some LVersion => Done [Out v] 0
  | Some _ => Done [Err u] 1
  | None =>
      let c := configured to te opts in
      match args with
      | [] => lbind (process mem c None stdin) (fun res => Done [] (if Z.eqb res 0 then 0 else 1))
      | _ => process_files mem prog c args 0
      end
  end.
Proof.
  intros prog u v to te opts args stdin. unfold lint_main. rewrite options_ok.
  destruct (find ends_run opts) as [ [ ] | ]; try reflexivity. cbv zeta.
  unfold settle. cbn [lc_width lc_flags lc_dump lc_color_out lc_color_err lc_stream pf_single pf_only_statements orb].
  unfold configured. destruct (given (fun o => match o with LAst => true | _ => false end) opts); reflexivity.
Qed.

Lemma run_ok : forall prog u v to te opts args stdin l st, find ends_run opts = None ->
  lint_main mem prog u v to te opts args stdin = Done l st ->
  let c := configured to te opts in
  (st = 0 \/ st = 1) /\ (st = 0 <-> Forall (faultless c) (inputs args stdin)) /\
  reported prog c (inputs args stdin) (to_stderr l) /\ (lc_dump c = false -> to_stdout l = []) /\
  (lc_dump c = true -> dumps mem c (nonempty args) (inputs args stdin) (to_stdout l)).
Proof.
  intros prog u v to te opts args stdin l st Ho H. rewrite main_ok, Ho in H. cbv zeta in *.
  set (c := configured to te opts) in *. destruct args as [ | a args ]; cbn [inputs nonempty].
  - destruct (process mem c None stdin) as [ l1 res | ] eqn:E; [ | discriminate H ]. cbn [lbind] in H. injection H as <- <-.
    rewrite app_nil_r. destruct (process_ok _ _ _ _ _ E) as (segs & S1 & S2 & S3 & S4 & S5).
    split; [ destruct (res =? 0)%Z; auto | ]. split; [ | split; [ | split; [ exact S4 | ] ] ].
    + pose proof (faultless_iff c (AStdin stdin) stdin segs eq_refl S1) as F.
      rewrite S2. split.
      * intros K. constructor; [ | constructor ]. apply F. destruct (errors_of segs); [ reflexivity | discriminate K ].
      * intros K. apply Forall_inv in K. apply F in K. rewrite K. reflexivity.
    + rewrite S3, <- (app_nil_r (flat_map _ _)). change (shown None) with (arg_name (AStdin stdin)).
      econstructor; [ reflexivity | exact S1 | constructor ].
    + intros D. rewrite <- (app_nil_r (to_stdout l1)). econstructor; [ reflexivity | exact S1 | exact (S5 D) | constructor ].
  - destruct (files_ok _ _ _ _ _ _ (Z.le_refl 0) H) as (F1 & F2 & F3 & F4 & F5).
    split; [ exact F1 | ]. split; [ rewrite F2; tauto | ]. auto.
Qed.

(** ** It returns *)
Lemma process_returns : forall c f input segs, lc_dump c = false -> parses (colors c) (lc_flags c) input segs ->
  exists l res, process mem c f input = Done l res.
Proof.
  intros c f input segs D (last & P). unfold process.
  change (mkcf (mkpos 1 1 0) 0 (colors c)) with (parser_config c) in P.
  destruct (stream_parses _ _ _ _ _ P) as (_ & _ & C).
  destruct (lc_stream c).
  - unfold process_streamed. rewrite P.
    assert (K : forall n, exists l m, callbacks mem c f segs n = Done l m).
    { clear P. induction segs as [ | s segs IH ]; intros n; [ eexists; eexists; reflexivity | ].
      unfold errors_of in C. cbn [flat_map] in C. apply Forall_app in C. destruct C as [ C1 C2 ].
      cbn [callbacks]. unfold parse_callback. destruct (print_errors_ok f _ C1) as (l1 & P1 & _). rewrite P1, D.
      cbn [lbind]. destruct (IH C2 (n + List.length (s_errors s))) as (l & m & E). rewrite E. eauto. }
    destruct (K 0) as (l & m & E). rewrite E. cbn [lbind]. eauto.
  - unfold process_all, cypher_fparse. rewrite P.
    destruct (PropCypher.result_is_concatenation segs) as (R1 & R2 & _). cbv zeta in *. rewrite R2.
    destruct (print_errors_ok f _ C) as (l1 & P1 & _). unfold errors_of in P1. rewrite P1, D. cbn [lbind]. eauto.
Qed.

Lemma files_return : forall prog c args err, lc_dump c = false ->
  Forall (fun a => forall input, arg_input a = Some input -> exists segs, parses (colors c) (lc_flags c) input segs) args ->
  exists l st, process_files mem prog c args err = Done l st.
Proof.
  intros prog c args err D H. revert err. induction H as [ | a args Ha _ IH ]; intros err; [ eexists; eexists; reflexivity | ].
  destruct a as [ s | n s | n w ]; cbn [process_files].
  - destruct (Ha s eq_refl) as (segs & P). destruct (process_returns c (Some (B "<stdin>")) s segs D P) as (l & res & E). rewrite E.
    cbn [lbind]. destruct (IH (Z.lor err res)) as (l2 & st & E2). rewrite E2. eauto.
  - destruct (Ha s eq_refl) as (segs & P). destruct (process_returns c (Some n) s segs D P) as (l & res & E). rewrite E.
    cbn [lbind]. destruct (res <? 0)%Z; [ eauto | ]. destruct (IH (Z.lor err res)) as (l2 & st & E2). rewrite E2. eauto.
  - eauto.
Qed.

Lemma main_returns : forall prog u v to te opts args stdin, lc_dump (configured to te opts) = false ->
  Forall (fun a => forall input, arg_input a = Some input ->
    exists segs, parses (colors (configured to te opts)) (lc_flags (configured to te opts)) input segs) (inputs args stdin) ->
  exists l st, lint_main mem prog u v to te opts args stdin = Done l st.
Proof.
  intros prog u v to te opts args stdin D H. rewrite main_ok.
  destruct (find ends_run opts) as [ [ ] | ]; try (eexists; eexists; reflexivity). cbv zeta.
  destruct args as [ | a args ].
  - apply Forall_inv in H. destruct (H stdin eq_refl) as (segs & P).
    destruct (process_returns _ None _ _ D P) as (l & res & E). rewrite E. cbn [lbind]. eauto.
  - apply files_return; assumption.
Qed.

End Lint.

(** reports do not depend on the rest of the configuration *)
Lemma reported_det : forall prog c c' l t t', colors c = colors c' -> lc_flags c = lc_flags c' ->
  reported prog c l t -> reported prog c' l t' -> t = t'.
Proof.
  intros prog c c' l t t' Hc Hf H. revert t'. induction H as [ | n w l | a i segs l rest Ha (la & P) H IH ]; intros t' H'.
  - inversion H'. reflexivity.
  - inversion H'; subst; [ reflexivity | discriminate ].
  - inversion H' as [ | n w l' E | a' i' segs' l' rest' Ha' (la' & P') H'' ]; subst; [ discriminate Ha | ].
    rewrite Ha in Ha'. injection Ha' as <-. rewrite Hc, Hf, P' in P. injection P as -> _. f_equal. auto.
Qed.

Lemma parse_each_ret0 : forall cf la fl inp z segs last, parse_each cf la (fun _ => 0%Z) fl inp = PRet z segs last -> z = 0%Z.
Proof.
  intros cf la fl inp z segs last H. apply parse_each_chain in H. destruct H as (ch & _ & _ & _ & _ & E). destruct segs; apply E.
Qed.

Lemma parsed_printable_all : forall cf la cb fl inp ret segs last,
  parse_each cf la cb fl inp = PRet ret segs last -> forall n, In n (forest (flat_map s_roots segs)) ->
  made n /\ resolved (forest_ord (flat_map s_roots segs)) n.
Proof.
  intros cf la cb fl inp ret segs last H n Hn. apply parse_each_documented in H. destruct H as [ H _ ].
  assert (K : Forall as_documented (forest (flat_map s_roots segs))).
  { clear n Hn. induction segs as [ | s segs IH ]; [ constructor | ]. cbn [flat_map]. unfold forest. rewrite flat_map_app.
    apply Forall_app. split; [ apply (Forall_inv H) | apply IH, (Forall_inv_tail H) ]. }
  pose proof (documented_resolved _ K) as R. rewrite Forall_forall in K, R. split; [ apply documented_made | ]; auto.
Qed.
