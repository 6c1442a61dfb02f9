(** * cypher-lint (C50)

    Specification: LintSpec.v.  Model: LintModel.v.  [lint_main] is the program: the options as
    getopt returns them, the arguments that are files, and stdin; it is [Dies] if the process
    ends in a failed assertion or in undefined behaviour. *)
From Coq Require Import List Bool Arith ZArith Ascii String Lia.
From Verif Require Import Peg QuickModel ErrModel CypherSyntax CypherGrammar CypherMatch AstTypes AstModel CypherExec
  CypherParse CypherSpec AstSpec SafeSpec SafeNodes SafeProofs UtilSpec CypherInv SourceModel SourceSpec SourceProofs
  DetailModel PrintModel PrintSpec PrintProofs PropCypher PropPrint PropUtil PropSkip PropSource AccessSpec
  LintModel LintSpec LintProofs.
Import ListNotations.

Definition nonempty_args (l : list arg) : bool := match l with [] => false | _ => true end.

(** ** Exit status *)
(** Unless an option ends the run, the status is 0 if every input can be opened and has no parse
    errors, and 1 otherwise. *)
Theorem lint_status : forall mem prog usage version tty_out tty_err opts args stdin l st,
  find ends_run opts = None ->
  lint_main mem prog usage version tty_out tty_err opts args stdin = Done l st ->
  (st = 0 \/ st = 1) /\ (st = 0 <-> Forall (faultless (configured tty_out tty_err opts)) (inputs args stdin)).
Proof.
  intros mem prog u v to te opts args stdin l st Ho H. destruct (run_ok _ _ _ _ _ _ _ _ _ _ _ Ho H) as (H1 & H2 & _). auto.
Qed.
Print Assumptions lint_status.

(** ** Reports *)
(** stderr receives a report for each error of each input, in order, and nothing else; the first
    argument that cannot be opened is named, and ends the run. *)
Theorem lint_reports : forall mem prog usage version tty_out tty_err opts args stdin l st,
  find ends_run opts = None ->
  lint_main mem prog usage version tty_out tty_err opts args stdin = Done l st ->
  reported prog (configured tty_out tty_err opts) (inputs args stdin) (to_stderr l).
Proof.
  intros mem prog u v to te opts args stdin l st Ho H. destruct (run_ok _ _ _ _ _ _ _ _ _ _ _ Ho H) as (_ & _ & H3 & _). auto.
Qed.
Print Assumptions lint_reports.

(** The position, message and context of each report are those of the byte that could not be
    matched.  Partial: without newlines after backquotes (cf. [cypher_errors_partial]). *)
Theorem lint_reports_described_partial : forall color fl input segs,
  bq_ok input -> parses color fl input segs ->
  Forall (errors_described color (mkpos 1 1 0) input) segs.
Proof.
  intros color fl input segs Hb (last & H).
  destruct (parse_chunks_exact (mkcf (mkpos 1 1 0) 0 color) (fun _ => 0%Z) fl) as [ X _ ].
  destruct (X input) as (la & _ & E). rewrite E in H. exact (cypher_errors_partial _ _ _ _ _ _ _ _ Hb H).
Qed.
Print Assumptions lint_reports_described_partial.

(** Every error comes with input that was skipped: a status of 1 means that an argument cannot be
    opened or that there is an error node in the trees of an input. *)
Theorem lint_failure_means_skipped : forall mem prog usage version tty_out tty_err opts args stdin l,
  find ends_run opts = None ->
  lint_main mem prog usage version tty_out tty_err opts args stdin = Done l 1 ->
  exists a, In a (inputs args stdin) /\
    (arg_input a = None \/
     exists input segs s, arg_input a = Some input /\ In s segs /\
       parses (colors (configured tty_out tty_err opts)) (lc_flags (configured tty_out tty_err opts)) input segs /\
       has_error_node (s_roots s)).
Proof.
  intros mem prog u v to te opts args stdin l Ho H.
  destruct (lint_status _ _ _ _ _ _ _ _ _ _ _ Ho H) as [ _ S ]. pose proof (lint_reports _ _ _ _ _ _ _ _ _ _ _ Ho H) as R.
  set (c := configured to te opts) in *.
  assert (N : ~ Forall (faultless c) (inputs args stdin)) by (intros K; apply S in K; discriminate K). clear S H.
  induction R as [ | name why ar | a input segs ar rest Ha P R IH ].
  - exfalso. apply N. constructor.
  - exists (AMissing name why). split; [ left; reflexivity | left; reflexivity ].
  - destruct (errors_of segs) as [ | e es ] eqn:E.
    + destruct IH as (b & I1 & I2); [ intros K; apply N; constructor; [ exists input, segs; auto | exact K ] | ].
      exists b. split; [ right; exact I1 | exact I2 ].
    + exists a. split; [ left; reflexivity | ]. right.
      assert (K : In e (errors_of segs)) by (rewrite E; left; reflexivity). unfold errors_of in K. apply in_flat_map in K.
      destruct K as (s & K1 & K2). exists input, segs, s. split; [ exact Ha | ]. split; [ exact K1 | ]. split; [ exact P | ].
      destruct P as (last & P). destruct (parse_chunks_exact (mkcf (mkpos 1 1 0) 0 (colors c)) (fun _ => 0%Z) (lc_flags c)) as [ X _ ].
      destruct (X input) as (la & _ & Q). rewrite Q in P.
      eapply errors_have_skipped_input; [ exact P | exact K1 | ]. intros Z. rewrite Z in K2. destruct K2.
Qed.
Print Assumptions lint_failure_means_skipped.

(** ** Trees *)
(** stdout receives nothing without --ast, and with it the trees of the inputs, in order. *)
Theorem lint_stdout : forall mem prog usage version tty_out tty_err opts args stdin l st,
  find ends_run opts = None ->
  lint_main mem prog usage version tty_out tty_err opts args stdin = Done l st ->
  (~ In LAst opts -> to_stdout l = []) /\
  (In LAst opts -> dumps mem (configured tty_out tty_err opts) (nonempty_args args) (inputs args stdin) (to_stdout l)).
Proof.
  intros mem prog u v to te opts args stdin l st Ho H. destruct (run_ok _ _ _ _ _ _ _ _ _ _ _ Ho H) as (_ & _ & _ & H4 & H5).
  assert (D : lc_dump (configured to te opts) = true <-> In LAst opts).
  { unfold configured, given. cbn [lc_dump]. rewrite existsb_exists. split.
    - intros ([ ] & K1 & K2); try discriminate K2. exact K1.
    - intros K. exists LAst. auto. }
  split.
  - intros N. apply H4. destruct (lc_dump _); [ exfalso; apply N, D; reflexivity | reflexivity ].
  - intros K. assert (E : nonempty_args args = nonempty args) by (destruct args; reflexivity). rewrite E. apply H5, D, K.
Qed.
Print Assumptions lint_stdout.

(** The trees of the segments of an input, or of all of them at once, are printed one line per
    node.  Partial: as for [cypher_ast_fprint_lines_partial]. *)
Theorem lint_tree_lines_partial : forall mem c input segs roots,
  parses (colors c) (lc_flags c) input segs ->
  (exists s, In s segs /\ roots = s_roots s) \/ roots = flat_map s_roots segs ->
  List.length (mem_buf mem) = fprint_bufcap ->
  (forall n, In n (forest roots) -> List.length (dec (nord n)) <= 10) ->
  exists detail, (forall n, In n (forest roots) -> has_detail (forest_ord roots) n (detail n)) /\
  (never_exact fprint_bufcap (map (fun n => List.length (detail n)) (forest roots)) ->
  exists cols lines,
    tree_text mem c roots (List.concat lines) /\
    Forall (fits cols) (outlines roots) /\
    Forall2 (line_of cols (if lc_color_out c then ac_ansi else ac_none) (lc_width c) detail) (outlines roots) lines).
Proof.
  intros mem c input segs roots (last & H) Hr Hb Ho.
  destruct (parse_chunks_exact (mkcf (mkpos 1 1 0) 0 (colors c)) (fun _ => 0%Z) (lc_flags c)) as [ X _ ].
  destruct (X input) as (la & _ & E). rewrite E in H.
  assert (K : forall n, In n (forest roots) -> made n /\ resolved (forest_ord roots) n).
  { destruct Hr as [ (s & Hs & ->) | -> ].
    - intros n Hn. eapply parsed_printable; eauto.
    - eapply parsed_printable_all; eauto. }
  exists (detail_text (forest_ord roots)).
  split; [ intros n Hn; destruct (K n Hn); apply detail_text_ok; assumption | ]. intros HN.
  apply fprintv_lines; [ exact Hb | | exact HN ]. apply Forall_forall. intros n Hn. destruct (K n Hn) as [ K1 K2 ].
  split; [ exact K1 | ]. split; [ exact K2 | ]. split; [ apply Ho, Hn | apply detail_text_ok; assumption ].
Qed.
Print Assumptions lint_tree_lines_partial.

(** ** Options *)
(** --help and --version succeed without reading anything, an unknown option fails; the first of
    these decides. *)
Theorem lint_ends_run : forall mem prog usage version tty_out tty_err opts args stdin o,
  find ends_run opts = Some o ->
  lint_main mem prog usage version tty_out tty_err opts args stdin =
  match o with LHelp => Done [Out usage] 0 | LVersion => Done [Out version] 0 | _ => Done [Err usage] 1 end.
Proof. intros mem prog u v to te opts args stdin o H. rewrite main_ok, H. destruct o; reflexivity. Qed.
Print Assumptions lint_ends_run.

(** Whether trees are dumped, whether they are dumped as the input is read, how wide and in which
    colors has no influence on the status, nor on stderr but for its own colors. *)
Theorem lint_same_reports : forall mem mem' prog usage version to te to' te' opts opts' args stdin l l' st st',
  find ends_run opts = None -> find ends_run opts' = None ->
  lint_main mem prog usage version to te opts args stdin = Done l st ->
  lint_main mem' prog usage version to' te' opts' args stdin = Done l' st' ->
  lc_flags (configured to te opts) = lc_flags (configured to' te' opts') ->
  lc_color_err (configured to te opts) = lc_color_err (configured to' te' opts') ->
  st = st' /\ to_stderr l = to_stderr l'.
Proof.
  intros mem mem' prog u v to te to' te' opts opts' args stdin l l' st st' Ho Ho' H H' Hf Hc.
  destruct (lint_status _ _ _ _ _ _ _ _ _ _ _ Ho H) as [ S1 S2 ].
  destruct (lint_status _ _ _ _ _ _ _ _ _ _ _ Ho' H') as [ S1' S2' ].
  assert (C : colors (configured to te opts) = colors (configured to' te' opts')) by (unfold colors; rewrite Hc; reflexivity).
  split.
  - assert (E : st = 0 <-> st' = 0) by (rewrite S2, S2'; unfold faultless; rewrite C, Hf; reflexivity).
    destruct S1 as [ -> | -> ], S1' as [ -> | -> ]; try reflexivity; destruct E as [ E1 E2 ];
      [ discriminate (E1 eq_refl) | discriminate (E2 eq_refl) ].
  - eapply reported_det; [ exact C | exact Hf | eapply lint_reports; eauto | eapply lint_reports; eauto ].
Qed.
Print Assumptions lint_same_reports.

(** ** It returns *)
(** Without --ast.  Partial: for inputs without newlines after backquotes and without comments
    beside dots (cf. [parser_assertions_hold_partial]). *)
Theorem lint_returns_partial : forall mem prog usage version tty_out tty_err opts args stdin, ~ In LAst opts ->
  Forall (fun a => forall input, arg_input a = Some input -> no_newline_in_names input /\ ~ comment_beside_dot input)
    (inputs args stdin) ->
  exists l st, lint_main mem prog usage version tty_out tty_err opts args stdin = Done l st.
Proof.
  intros mem prog u v to te opts args stdin D H. apply main_returns.
  - unfold configured, given. cbn [lc_dump]. destruct (existsb _ opts) eqn:E; [ | reflexivity ].
    apply existsb_exists in E. destruct E as ([ ] & K1 & K2); try discriminate K2. contradiction.
  - eapply Forall_impl; [ | exact H ]. intros a K input Ha. destruct (K input Ha) as [ K1 K2 ].
    set (c := configured to te opts). set (cf := mkcf (mkpos 1 1 0) 0 (colors c)).
    destruct (parse_chunks_partial cf (fun _ => 0%Z) (lc_flags c)) as [ P _ ]; [ intros ? ? _; reflexivity | ]. specialize (P input).
    destruct (parse_each_returns cf whole (fun _ => 0%Z) (lc_flags c) input K1 K2) as (z & sg & last & E);
      [ intros s p; apply Nat.le_refl | ].
    rewrite E in P.
    destruct (cypher_fparse_each cf (fun _ => 0%Z) (lc_flags c) input) as [ z' sg' last' | | | | | ] eqn:F; try discriminate P.
    exists sg', last'. destruct (parse_chunks_exact cf (fun _ => 0%Z) (lc_flags c)) as [ X _ ]. destruct (X input) as (la & _ & Q).
    pose proof F as F'. rewrite Q in F'. apply parse_each_ret0 in F'. subst z'. exact F.
Qed.
Print Assumptions lint_returns_partial.

(** ** Examples *)
Definition mem0 : memory := mkmem 0 "?"%char (repeat "000"%char fprint_bufcap).
Definition good : bytes := B "MATCH (n) RETURN n;" ++ NL :: B ":play x".
Definition bad : bytes := B "RETURN 1;" ++ NL :: B "X;".
Definition lint (opts : list lint_opt) (args : list arg) : lrun nat :=
  lint_main mem0 (B "cypher-lint") (B "usage") (B "version") false false opts args [].

Definition outputs (r : lrun nat) : option (bytes * bytes * nat) :=
  match r with Done l st => Some (to_stdout l, to_stderr l, st) | Dies => None end.

Example lint_good : outputs (lint [] [AFile (B "good") good]) = Some ([], [], 0).
Proof. vm_compute. reflexivity. Qed.

Example lint_bad : outputs (lint [LOnlyStatements] [AFile (B "good") (B "RETURN 1"); AFile (B "bad") bad]) =
  Some ([], B "bad:2:1: Invalid input 'X': expected ';', a statement option, a query hint, a clause or a schema command" ++
            NL :: B "X;" ++ NL :: B "^" ++ [NL], 1).
Proof. vm_compute. reflexivity. Qed.

Example lint_dumped : exists dump, outputs (lint [LAst; LWidth 40] [AFile (B "one") (B "RETURN 1;")]) =
  Some (B "one:" ++ NL :: dump, [], 0) /\ 4 <= count_occ ascii_dec dump NL.
Proof. eexists. split; [ vm_compute; reflexivity | apply Nat.leb_le; vm_compute; reflexivity ]. Qed.

Example lint_usage : outputs (lint [LAst; LUnknown; LHelp] []) = Some ([], B "usage", 1).
Proof. reflexivity. Qed.

Example good_returns : no_newline_in_names good /\ ~ comment_beside_dot good /\ bq_ok bad.
Proof.
  split; [ | split ].
  - intros a b c E. assert (K : In BQ good) by (rewrite E, in_app_iff; right; left; reflexivity).
    vm_compute in K. intuition discriminate.
  - apply PropSafe.no_dot_no_comment. intros K. vm_compute in K. intuition discriminate.
  - intros p q K. apply nth_error_In in K. vm_compute in K. intuition discriminate.
Qed.

(** ** What does not hold *)
(** The status is 0 although input was skipped (cf. [skipped_input_reported_refuted]). *)
Theorem lint_silent_refuted : exists args l,
  lint [] args = Done l 0 /\ to_stderr l = [] /\
  exists a input segs s, In a args /\ arg_input a = Some input /\ parses no_colorization (mkpf false false) input segs /\
    In s segs /\ has_error_node (s_roots s).
Proof.
  exists [AFile (B "f") silent].
  assert (H : outputs (lint [] [AFile (B "f") silent]) = Some ([], [], 0)) by (vm_compute; reflexivity).
  destruct (lint [] [AFile (B "f") silent]) as [ l st | ] eqn:E; [ | discriminate H ]. injection H as H1 H2 ->.
  exists l. split; [ reflexivity | ]. split; [ exact H2 | ].
  assert (K : match cypher_fparse_each (mkcf (mkpos 1 1 0) 0 no_colorization) (fun _ => 0%Z) (mkpf false false) silent with
    | PRet 0%Z segs _ => existsb (fun s => existsb (fun n => type_eqb (nty n) T_ERROR) (forest (s_roots s))) segs
    | _ => false end = true) by (vm_compute; reflexivity).
  destruct (cypher_fparse_each _ _ _ silent) as [ [ | | ] segs last | | | | | ] eqn:P; try discriminate K.
  apply existsb_exists in K. destruct K as (s & K1 & K2). apply existsb_exists in K2. destruct K2 as (n & K2 & K3).
  exists (AFile (B "f") silent), silent, segs, s. split; [ left; reflexivity | ]. split; [ reflexivity | ].
  split; [ exists last; exact P | ]. split; [ exact K1 | ]. exists n. split; [ exact K2 | ].
  revert K3. destruct (nty n); intros K3; try discriminate K3; reflexivity.
Qed.
Print Assumptions lint_silent_refuted.

(** There are inputs for which the process ends in a failed assertion. *)
Theorem lint_returns_refuted : exists input, lint [] [AFile (B "f") input] = Dies.
Proof. exists (B "RETURN a/**/.b()"). vm_compute. reflexivity. Qed.
Print Assumptions lint_returns_refuted.

(** The arguments after one that cannot be opened are not read. *)
Theorem lint_reads_all_refuted : exists args e,
  In (AFile (B "bad") bad) args /\ outputs (lint [] args) = Some ([], e, 1) /\
  e = B "cypher-lint: gone: No such file or directory" ++ [NL].
Proof.
  exists [AMissing (B "gone") (B "No such file or directory"); AFile (B "bad") bad]. eexists.
  split; [ right; left; reflexivity | split; reflexivity ].
Qed.
Print Assumptions lint_reads_all_refuted.
