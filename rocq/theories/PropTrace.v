(** * Comments, skipped input, client commands (C43, C44, C45)

    Specification: TraceSpec.v.  Model: CypherParse.v (parser.c, parser.leg). *)
From Coq Require Import List Bool Arith ZArith Ascii String Lia Permutation.
From Verif Require Import Peg QuickModel QuickSpec ErrModel CypherSyntax CypherGrammar CypherMatch AstTypes AstModel
  CypherExec CypherParse CypherSpec CypherLoop PropCypher TraceSpec TraceProofs.
Import ListNotations.

(** ** C43 *)
(** Take the uses of grammar rules in the match that gave a segment.  Those of the
    rules for comments and for skipping input, and the comment and error nodes
    of the segment (anywhere in its trees), are the same up to order: type, text
    and start.  Each use of a comment rule is over a comment, and the text is
    what is between its delimiters. *)
Theorem comments_and_skipped_input_preserved : forall cf la cb fl inp ret segs last seg,
  parse_each cf la cb fl inp = PRet ret segs last -> In seg segs ->
  exists uses, matched_with cf fl inp seg uses /\ Forall (use_ok inp) uses /\
    Permutation (map view (filter is_text_node (forest (s_roots seg))))
      (map (at_offset (offset (cf_position cf))) (flat_map (text_node inp) uses)).
Proof. exact parse_each_text. Qed.
Print Assumptions comments_and_skipped_input_preserved.

Lemma text_in : forall inp k uses t s p,
  In (t, s, p) (map (at_offset k) (flat_map (text_node inp) uses)) ->
  exists r i j, In (r, i, j) uses /\
    (r = R_line_comment /\ t = T_LINE_COMMENT /\ s = between_line (slice inp i j) /\ p = k + (i + 2) \/
     r = R_block_comment /\ t = T_BLOCK_COMMENT /\ s = between_block (slice inp i j) /\ p = k + (i + 2) \/
     t = T_ERROR /\ s = slice inp i j /\ p = k + i).
Proof.
  intros inp k uses t s p H. apply in_map_iff in H. destruct H as [[[t0 s0] p0] [E H]]. injection E as <- <- <-.
  apply in_flat_map in H. destruct H as [[[r i] j] [H1 H2]]. exists r, i, j. split; [exact H1|].
  destruct r; cbn in H2; try contradiction; destruct H2 as [E|[]]; injection E as <- <- <-; auto 10.
Qed.

(** The comment of every use of a comment rule is the text of a comment node ... *)
Theorem comment_has_node : forall cf la cb fl inp ret segs last seg,
  parse_each cf la cb fl inp = PRet ret segs last -> In seg segs ->
  exists uses, matched_with cf fl inp seg uses /\
    (forall p q, In (R_line_comment, p, q) uses -> exists t n,
       line_comment_text (slice inp p q) (skipn q inp) t /\
       In n (forest (s_roots seg)) /\ nty n = T_LINE_COMMENT /\ text_of n = t /\
       offset (r_start (nrng n)) = offset (cf_position cf) + p + 2) /\
    (forall p q, In (R_block_comment, p, q) uses -> exists t n,
       block_comment_text (slice inp p q) t /\
       In n (forest (s_roots seg)) /\ nty n = T_BLOCK_COMMENT /\ text_of n = t /\
       offset (r_start (nrng n)) = offset (cf_position cf) + p + 2).
Proof.
  intros cf la cb fl inp ret segs last seg H Hs. destruct (parse_each_text _ _ _ _ _ _ _ _ _ H Hs) as (uses & U1 & U2 & U3).
  exists uses. split; [exact U1|]. rewrite Forall_forall in U2.
  assert (K : forall t s i, In (t, s, i) (flat_map (text_node inp) uses) -> exists n, In n (forest (s_roots seg)) /\
    nty n = t /\ text_of n = s /\ offset (r_start (nrng n)) = offset (cf_position cf) + i).
  { intros t s i Hi. apply (in_map (at_offset (offset (cf_position cf)))) in Hi.
    apply (Permutation_in _ (Permutation_sym U3)) in Hi. apply in_map_iff in Hi. destruct Hi as [n [E Hn]].
    apply filter_In in Hn. destruct Hn as [Hn _]. exists n. injection E as E1 E2 E3. auto. }
  split; intros p q Hu.
  - destruct (U2 _ Hu) as [_ [L _]]. eexists. destruct (K T_LINE_COMMENT (between_line (slice inp p q)) (p + 2)) as (n & N1 & N2 & N3 & N4).
    + apply in_flat_map. exists (R_line_comment, p, q). split; [exact Hu|left; reflexivity].
    + exists n. split; [exact (L eq_refl)|]. rewrite N4. repeat split; auto. lia.
  - destruct (U2 _ Hu) as [_ [_ L]]. eexists. destruct (K T_BLOCK_COMMENT (between_block (slice inp p q)) (p + 2)) as (n & N1 & N2 & N3 & N4).
    + apply in_flat_map. exists (R_block_comment, p, q). split; [exact Hu|left; reflexivity].
    + exists n. split; [exact (L eq_refl)|]. rewrite N4. repeat split; auto. lia.
Qed.
Print Assumptions comment_has_node.

(** ... and every comment node has the text of a comment of the input, which
    starts two bytes before the node. *)
Theorem comment_nodes_hold_comments : forall cf la cb fl inp ret segs last seg n,
  parse_each cf la cb fl inp = PRet ret segs last -> In seg segs -> In n (forest (s_roots seg)) ->
  (nty n = T_LINE_COMMENT -> exists p q, q <= List.length inp /\
     line_comment_text (slice inp p q) (skipn q inp) (text_of n) /\
     offset (r_start (nrng n)) = offset (cf_position cf) + p + 2) /\
  (nty n = T_BLOCK_COMMENT -> exists p q, q <= List.length inp /\
     block_comment_text (slice inp p q) (text_of n) /\
     offset (r_start (nrng n)) = offset (cf_position cf) + p + 2).
Proof.
  intros cf la cb fl inp ret segs last seg n H Hs Hn. destruct (parse_each_text _ _ _ _ _ _ _ _ _ H Hs) as (uses & U1 & U2 & U3).
  rewrite Forall_forall in U2.
  assert (K : is_text_node n = true -> In (view n) (map (at_offset (offset (cf_position cf))) (flat_map (text_node inp) uses))).
  { intros Ht. apply (Permutation_in _ U3). apply in_map, filter_In. auto. }
  split; intros Ht; unfold is_text_node in K; rewrite Ht in K; specialize (K eq_refl); apply text_in in K;
    destruct K as (r & i & j & J1 & J2); rewrite Ht in J2; destruct (U2 _ J1) as [L0 [L1 L2]]; exists i, j; (split; [apply L0|]);
    destruct J2 as [[-> [E1 [-> ->]]]|[[-> [E1 [-> ->]]]|[E1 _]]]; try discriminate E1; (split; [auto|lia]).
Qed.
Print Assumptions comment_nodes_hold_comments.

(** ** C45 *)
(** An error node has the text of the input that was skipped, from where the node
    starts. *)
Theorem error_nodes_hold_input : forall cf la cb fl inp ret segs last seg n,
  parse_each cf la cb fl inp = PRet ret segs last -> In seg segs -> In n (forest (s_roots seg)) -> nty n = T_ERROR ->
  exists p q, p <= q <= List.length inp /\ text_of n = slice inp p q /\
    offset (r_start (nrng n)) = offset (cf_position cf) + p.
Proof.
  intros cf la cb fl inp ret segs last seg n H Hs Hn Ht. destruct (parse_each_text _ _ _ _ _ _ _ _ _ H Hs) as (uses & U1 & U2 & U3).
  rewrite Forall_forall in U2.
  assert (K : In (view n) (map (at_offset (offset (cf_position cf))) (flat_map (text_node inp) uses))).
  { apply (Permutation_in _ U3). apply in_map, filter_In. unfold is_text_node. rewrite Ht. auto. }
  apply text_in in K. destruct K as (r & i & j & J1 & J2). rewrite Ht in J2. destruct (U2 _ J1) as [L0 _].
  exists i, j. split; [exact L0|]. destruct J2 as [[_ [E _]]|[[_ [E _]]|[_ [-> ->]]]]; try discriminate E. auto.
Qed.
Print Assumptions error_nodes_hold_input.

Definition commented : bytes :=
  B "/* one */ RETURN // two" ++ NL :: B "1 /*/ 2 */, x /* * */; foo bar RETURN 2 baz; // end".

Example commented_meets : exists ret segs last,
  parse_each std_config whole never plain commented = PRet ret segs last /\
  map (fun seg => map view (filter is_text_node (forest (s_roots seg)))) segs =
    [ [(T_BLOCK_COMMENT, B " one ", 2); (T_LINE_COMMENT, B " two", 19);
       (T_BLOCK_COMMENT, B "/ 2 ", 28); (T_BLOCK_COMMENT, B " * ", 40)];
      [(T_ERROR, B "foo bar", 47); (T_ERROR, B "baz", 64)];
      [(T_LINE_COMMENT, B " end", 71)] ].
Proof. do 3 eexists. split; vm_compute; reflexivity. Qed.

Example commented_uses :
  flat_map (text_node commented)
    (visits (cf_color std_config) (cf_position std_config) commented (cfuel commented) (PRule (start_rule plain))
       (match_start (carry0 std_config))) =
  [(T_BLOCK_COMMENT, B " one ", 2); (T_LINE_COMMENT, B " two", 19);
   (T_BLOCK_COMMENT, B "/ 2 ", 28); (T_BLOCK_COMMENT, B " * ", 40)].
Proof. vm_compute. reflexivity. Qed.

(** ** C44 *)
(** With CYPHER_PARSE_ONLY_STATEMENTS no node of any segment is a client command;
    for the quick parser see [quick_only_statement_segments]. *)
Theorem only_statements_no_commands : forall cf la cb fl inp ret segs last seg n, pf_only_statements fl = true ->
  parse_each cf la cb fl inp = PRet ret segs last -> In seg segs -> In n (forest (s_roots seg)) -> nty n <> T_COMMAND.
Proof. exact parse_each_commandless. Qed.
Print Assumptions only_statements_no_commands.

Example commands_without_flag : exists ret segs last ret' segs' last',
  parse_each std_config whole never plain (B ":play x" ++ NL :: B "RETURN 1;") = PRet ret segs last /\
  map (fun seg => map nty (s_roots seg)) segs = [[T_COMMAND]; [T_STATEMENT]] /\
  parse_each std_config whole never (mkpf false true) (B ":play x" ++ NL :: B "RETURN 1;") = PRet ret' segs' last' /\
  map (fun seg => map nty (s_roots seg)) segs' = [[T_ERROR; T_STATEMENT]].
Proof. do 6 eexists. split; [|split; [|split]]; vm_compute; reflexivity. Qed.
