(** * Properties of full parsing (C13 - C20)

    Specification: CypherSpec.v (and [walk] of QuickSpec.v).  Model: CypherParse.v.
    [parse_each cf la cb fl inp] is the outcome of cypher_uparse_each /
    cypher_fparse_each with configuration [cf], flags [fl] and a callback that
    answers [cb segs] once it has been given the segments [segs]; [la] says how
    far ahead the source had been read at the end of each round (it only
    matters for error contexts). *)
From Coq Require Import List Bool Arith ZArith Ascii String Lia Sorted.
From Verif Require Import Peg QuickModel QuickSpec ErrModel CypherSyntax CypherGrammar CypherMatch AstTypes AstModel
  CypherBuild CypherExec CypherParse CypherRound CypherSpec CypherInv CypherLoop CypherChain NodeFacts.
Import ListNotations.

Definition whole : lookahead := fun inp _ => List.length inp.
Definition plain : pflags := mkpf false false.

(** a statement, a comment and a client command over two lines, an unfinished
    statement with an error *)
Definition program : bytes :=
  B "RETURN 1+x AS y;" ++ NL :: B "// c" ++ NL :: B ":play x" ++ NL :: B "MATCH (n) FOO n".

Definition shape (r : presult) : list (nat * nat * nat * nat * bool) :=
  match r with
  | PRet _ segs _ => map (fun s => (offset (seg_start s), offset (seg_end s), s_nnodes s,
                                    List.length (s_errors s), s_eof s)) segs
  | _ => []
  end.

Example program_segments : shape (parse_each std_config whole never plain program) =
  [(0, 16, 8, 0, false); (16, 30, 4, 0, false); (30, 45, 8, 1, true)].
Proof. vm_compute. reflexivity. Qed.

(** ** C13 *)
(** The call ends: neither the machine that runs the grammar (whose fuel grows
    linearly with the input) nor the loop over rounds runs out of steps, for
    every input, callback, configuration and flags; and one round more than
    bytes suffices. *)
Theorem cypher_parse_terminates : forall cf la cb fl inp,
  parse_each cf la cb fl inp <> PFuel /\
  forall k, List.length inp < k ->
    ploop k cf la cb fl inp (cf_ordinal cf) (carry0 cf) [] None <> PFuel.
Proof.
  intros cf la cb fl inp. split.
  - apply parse_each_total.
  - intros k Hk. apply ploop_total; [exact Hk|apply quiet_0].
Qed.
Print Assumptions cypher_parse_terminates.

(** ** C14 *)
(** No input is rejected by the grammar: the outcome is a return, or the abort
    of a failed assertion (see C24), or a read of an unset value (see C24). *)
Theorem cypher_parse_never_rejects : forall cf la cb fl inp,
  parse_each cf la cb fl inp <> PFailed /\
  (forall ret segs last, parse_each cf la cb fl inp = PRet ret segs last ->
     ret = match segs with [] => 0%Z | _ => Z.min 0 (cb segs) end).
Proof.
  intros cf la cb fl inp. split.
  - apply parse_each_total.
  - intros ret segs last H. apply parse_each_chain in H.
    destruct H as [c [_ [_ [_ [_ E]]]]]. destruct segs; apply E.
Qed.
Print Assumptions cypher_parse_never_rejects.

Example rubbish_is_not_rejected :
  match parse_each std_config whole never plain (B "%)(&^ RETURN; 'x") with
  | PRet 0%Z segs _ => List.length segs = 2 | _ => False end.
Proof. vm_compute. reflexivity. Qed.

(** ** C15 *)
(** Segments are contiguous from the configured initial position, none is
    empty, and *last is the end of the last one.  If the call was not cut
    short, by the flag CYPHER_PARSE_SINGLE or by the callback, they reach the
    end of the input. *)
Theorem cypher_segments_tile : forall cf la cb fl inp ret segs last,
  parse_each cf la cb fl inp = PRet ret segs last ->
  last = last_end segs /\
  exists q, tiles (cf_position cf) segs q /\
    offset q <= offset (cf_position cf) + List.length inp /\
    ((pf_single fl = false \/ segs = []) -> (segs = [] \/ cb segs = 0%Z) ->
       offset q = offset (cf_position cf) + List.length inp).
Proof.
  intros cf la cb fl inp ret segs last H. apply parse_each_chain in H.
  destruct H as [c [Hc [-> [_ [_ E]]]]].
  split; [reflexivity|].
  destruct (chain_tiles _ _ _ _ _ _ _ _ (start_entry fl) Hc) as [q [T1 [T2 [T3 _]]]].
  exists q. cbn [y_off carry0] in *. split; [exact T1|]. split; [lia|].
  intros Hs Hcb. rewrite T3; [lia|]. destruct c; [reflexivity|].
  destruct segs as [|s segs]; [destruct E; discriminate|].
  destruct E as [_ E]. destruct (E eq_refl) as [E'|E'].
  - destruct Hs as [Hs|Hs]; [congruence|discriminate].
  - destruct Hcb as [Hs'|Hs']; [discriminate|contradiction].
Qed.
Print Assumptions cypher_segments_tile.

Example program_tiles : exists segs, parse_each std_config whole never plain program =
    PRet 0 segs (Some (mkpos 4 16 45)) /\ last_end segs = Some (mkpos 4 16 45) /\
    List.length segs = 3 /\ List.length program = 45.
Proof. eexists. split; [vm_compute; reflexivity|]. vm_compute. auto. Qed.

(** ** C16 *)
(** Lines, columns and offsets are those obtained by counting, in every
    segment range, node range and error position, for inputs in which no
    newline follows a backquote. *)
Theorem cypher_positions_partial : forall cf la cb fl inp ret segs last,
  bq_ok inp ->
  parse_each cf la cb fl inp = PRet ret segs last ->
  Forall (positions_true (cf_position cf) inp) segs.
Proof.
  intros cf la cb fl inp ret segs last Hbq H. apply parse_each_chain in H. destruct H as [c [Hc _]].
  exact (chain_positions _ _ _ _ _ _ _ _ (start_entry fl) Hc Hbq (quiet_0 cf)).
Qed.
Print Assumptions cypher_positions_partial.

Example program_bq : bq_ok program.
Proof.
  intros p q H. exfalso. revert H. unfold program.
  do 46 (destruct p as [|p]; [vm_compute; discriminate|]). vm_compute. destruct p; discriminate.
Qed.

Example program_error_position :
  match parse_each std_config whole never plain program with
  | PRet _ [_; _; s] _ => map (fun e => pe_pos e) (s_errors s) = [mkpos 4 13 42]
  | _ => False end.
Proof. vm_compute. reflexivity. Qed.

(** Without that condition the claim is false: a newline inside a name quoted
    with backquotes is not counted. *)
Theorem cypher_positions_refuted : exists inp ret segs last,
  parse_each std_config whole never plain inp = PRet ret segs last /\
  ~ Forall (positions_true position_zero inp) segs.
Proof.
  exists (B "RETURN `a" ++ NL :: B "b` AS c;").
  do 3 eexists. split; [vm_compute; reflexivity|].
  intros H. inversion H as [|s l [_ [[k [Hk E]] _]] _]; subst. clear H.
  assert (Hb : k <= 18) by (vm_compute in Hk; lia). clear Hk. revert E.
  do 19 (destruct k as [|k]; [vm_compute; discriminate|]). lia.
Qed.
Print Assumptions cypher_positions_refuted.

(** The offsets, however, are right for every input (C15). *)

(** ** C17 *)
(** A node starts before it ends, contains its children, and lies in the range
    of its segment; the children of a node, and the roots of a segment, are in
    the order in which they end. *)
Theorem cypher_ranges_nest : forall cf la cb fl inp ret segs last,
  parse_each cf la cb fl inp = PRet ret segs last ->
  forall s, In s segs ->
    (forall n, In n (forest (s_roots s)) -> nested n /\ inside s n) /\
    StronglySorted le (map (fun n => offset (r_end (nrng n))) (s_roots s)).
Proof.
  intros cf la cb fl inp ret segs last H s Hs. apply parse_each_chain in H. destruct H as [c [Hc _]].
  eapply chain_forall in Hc; [|intros; eapply produced_nested; [apply (start_entry fl)|eassumption]].
  rewrite Forall_forall in Hc. destruct (Hc s Hs) as [H1 H2]. rewrite Forall_forall in H1. auto.
Qed.
Print Assumptions cypher_ranges_nest.

Example program_nodes : match parse_each std_config whole never plain program with
  | PRet _ [s; _; _] _ =>
      map (fun n => (nty n, offset (r_start (nrng n)), offset (r_end (nrng n)))) (forest (s_roots s)) =
      [(T_STATEMENT, 0, 16); (T_QUERY, 0, 16); (T_RETURN, 0, 15); (T_PROJECTION, 7, 15);
       (T_BINARY_OPERATOR, 7, 11); (T_INTEGER, 7, 8); (T_IDENTIFIER, 9, 10); (T_IDENTIFIER, 14, 15)]
  | _ => False end.
Proof. vm_compute. reflexivity. Qed.

(** Children need not be in the order in which they start: the alias that is
    implied by a parenthesised projection starts before the expression. *)
Theorem sibling_starts_refuted : exists inp ret segs last s n a b,
  parse_each std_config whole never plain inp = PRet ret segs last /\
  In s segs /\ In n (forest (s_roots s)) /\ nkids n = [a; b] /\
  offset (r_start (nrng b)) < offset (r_start (nrng a)).
Proof.
  exists (B "RETURN (1)"). do 3 eexists. eexists _, (Node _ T_PROJECTION _ _ [_; _] _), _, _.
  split; [vm_compute; reflexivity|]. split; [left; reflexivity|].
  split; [vm_compute; do 3 right; left; reflexivity|]. split; [reflexivity|]. vm_compute. lia.
Qed.
Print Assumptions sibling_starts_refuted.

(** ** C18 *)
(** Numbering the nodes of a forest gives consecutive numbers in preorder and
    changes nothing else; the number after the last is returned. *)
Theorem ordinals_number_preorder : forall ts n,
  let (ts', m) := set_ordinals_all ts n in
  map nord (forest ts') = seq n (List.length (forest ts)) /\
  m = n + List.length (forest ts) /\
  map erase ts' = map erase ts.
Proof.
  intros ts n. pose proof (ordinals_all ts n) as H. cbv zeta in H.
  destruct (set_ordinals_all ts n). cbn [fst snd] in H. tauto.
Qed.
Print Assumptions ordinals_number_preorder.

(** Over a parse: from the configured initial ordinal on, without gaps, also
    from one segment to the next; nnodes is the number of nodes. *)
Theorem cypher_ordinals : forall cf la cb fl inp ret segs last,
  parse_each cf la cb fl inp = PRet ret segs last ->
  map nord (forest (flat_map s_roots segs)) =
    seq (cf_ordinal cf) (List.length (forest (flat_map s_roots segs))) /\
  forall s, In s segs -> s_nnodes s = List.length (forest (s_roots s)).
Proof.
  intros cf la cb fl inp ret segs last H. apply parse_each_chain in H. destruct H as [c [Hc _]]. apply chain_ordinals in Hc.
  destruct Hc as [H1 H2]. rewrite Forall_forall in H2. auto.
Qed.
Print Assumptions cypher_ordinals.

Example program_ordinals :
  match parse_each (mkcf position_zero 7 no_colorization) whole never plain program with
  | PRet _ segs _ => map (fun s => map nord (s_roots s)) segs = [[7]; [15; 16]; [19]]
  | _ => False end.
Proof. vm_compute. reflexivity. Qed.

(** ** C19 *)
(** Merging segments into a result concatenates. *)
Theorem result_is_concatenation : forall segs,
  let r := fold_left merge_segment segs result0 in
  pr_roots r = flat_map s_roots segs /\
  pr_errors r = flat_map s_errors segs /\
  pr_directives r = flat_map (fun s => match s_directive s with Some d => [d] | None => [] end) segs /\
  pr_nnodes r = fold_right Nat.add 0 (map s_nnodes segs) /\
  (pr_eof r = true <->
   exists s, In s segs /\ s_eof s = true /\ (s_directive s <> None \/ s_errors s <> [])).
Proof.
  intros segs.
  assert (K : forall r, let r' := fold_left merge_segment segs r in
    pr_roots r' = pr_roots r ++ flat_map s_roots segs /\
    pr_errors r' = pr_errors r ++ flat_map s_errors segs /\
    pr_directives r' = pr_directives r ++
      flat_map (fun s => match s_directive s with Some d => [d] | None => [] end) segs /\
    pr_nnodes r' = pr_nnodes r + fold_right Nat.add 0 (map s_nnodes segs) /\
    (pr_eof r' = true <-> pr_eof r = true \/
     exists s, In s segs /\ s_eof s = true /\ (s_directive s <> None \/ s_errors s <> []))).
  { induction segs as [|s segs IH]; intros r; cbn [fold_left flat_map map fold_right].
    - cbn. rewrite !app_nil_r, Nat.add_0_r. repeat split; auto. intros [H|[s [[] _]]]. exact H.
    - destruct (IH (merge_segment r s)) as [I1 [I2 [I3 [I4 I5]]]].
      cbn [merge_segment pr_roots pr_errors pr_directives pr_nnodes pr_eof] in I1, I2, I3, I4, I5.
      cbv zeta. rewrite I1, I2, I3, I4, <- !app_assoc.
      do 3 (split; [reflexivity|]). split; [lia|]. rewrite I5, orb_true_iff, andb_true_iff, orb_true_iff.
      assert (D : match s_directive s with Some _ => true | None => false end = true <-> s_directive s <> None)
        by (destruct (s_directive s); split; congruence).
      assert (N : nonempty (s_errors s) = true <-> s_errors s <> [])
        by (destruct (s_errors s); split; cbn; congruence).
      rewrite D, N. split.
      + intros [[H|H]|[s' [Hi H]]]; [auto|right; exists s; cbn; tauto|right; exists s'; cbn; tauto].
      + intros [H|[s' [[<- |Hi] H]]]; [auto|auto|right; exists s'; auto]. }
  destruct (K result0) as [K1 [K2 [K3 [K4 K5]]]]. cbv zeta.
  split; [exact K1|]. split; [exact K2|]. split; [exact K3|]. split; [exact K4|].
  rewrite K5. cbn. split; [intros [H|H]; [discriminate|exact H]|auto].
Qed.
Print Assumptions result_is_concatenation.

(** cypher_uparse / cypher_fparse: the result of merging the segments of the
    parse with a callback that never stops, with nnodes the number of nodes. *)
Theorem cypher_result : forall cf la fl inp r last,
  parse_all cf la fl inp = ARes r last ->
  exists segs, parse_each cf la never fl inp = PRet 0 segs last /\
    r = fold_left merge_segment segs result0 /\
    pr_nnodes r = List.length (forest (pr_roots r)).
Proof.
  intros cf la fl inp r last H. apply parse_all_each in H. destruct H as [segs [E ->]].
  exists segs. split; [exact E|]. split; [reflexivity|].
  destruct (result_is_concatenation segs) as [-> [_ [_ [-> _]]]].
  destruct (cypher_ordinals _ _ _ _ _ _ _ _ E) as [_ Hn]. clear E.
  induction segs as [|s segs IH]; [reflexivity|]. cbn [map fold_right flat_map].
  rewrite forest_app, app_length, <- IH by (intros; apply Hn; right; auto).
  rewrite (Hn s) by (left; auto). reflexivity.
Qed.
Print Assumptions cypher_result.

Example program_result : match parse_all std_config whole plain program with
  | ARes r (Some (mkpos 4 16 45)) =>
      (map nty (pr_roots r), pr_nnodes r, List.length (pr_errors r), List.length (pr_directives r), pr_eof r) =
      ([T_STATEMENT; T_LINE_COMMENT; T_COMMAND; T_STATEMENT], 20, 1, 3, true)
  | _ => False end.
Proof. vm_compute. reflexivity. Qed.

(** ** C20 *)
(** Let [all] be the segments of the parse that is never stopped.  Any
    callback is given these in order, up to and including the first for which
    it answers non-zero (or the first one, with CYPHER_PARSE_SINGLE); see
    [deliver].  *)
Theorem cypher_callback_protocol : forall cf la cb only single inp ret all last,
  parse_each cf la never (mkpf false only) inp = PRet ret all last ->
  let (r, seen) := deliver cb single [] all in
  parse_each cf la cb (mkpf single only) inp = PRet r seen (last_end seen).
Proof.
  exact parse_each_deliver.
Qed.
Print Assumptions cypher_callback_protocol.

(** Also when the uninterrupted parse would abort: the callback answered 0 to
    all segments but the last. *)
Theorem cypher_callback_stops : forall cf la cb fl inp ret segs last,
  parse_each cf la cb fl inp = PRet ret segs last ->
  (forall l1 s1 s2 l2, segs = l1 ++ s1 :: s2 :: l2 -> cb (l1 ++ [s1]) = 0%Z) /\
  (pf_single fl = true -> List.length segs <= 1) /\
  ret = match segs with [] => 0%Z | _ => Z.min 0 (cb segs) end.
Proof.
  intros cf la cb fl inp ret segs last H. apply parse_each_chain in H.
  destruct H as [c [_ [_ [E1 [E2 E3]]]]].
  split; [exact E1|]. split; [exact E2|]. destruct segs; apply E3.
Qed.
Print Assumptions cypher_callback_stops.

Example program_stopped :
  match parse_each std_config whole (fun l => if Nat.eqb (List.length l) 2 then (-3)%Z else 0%Z) plain program with
  | PRet (-3)%Z [_; _] (Some (mkpos 4 1 30)) => True | _ => False end.
Proof. vm_compute. exact I. Qed.
