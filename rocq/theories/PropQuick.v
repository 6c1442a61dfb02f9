(** * Properties of quick parsing (C01 - C10)

    Specification: QuickSpec.v.  Model: QuickModel.v.  [quick_parse cb fl inp]
    is the return value of cypher_quick_uparse/fparse and the list of segments
    the callback was given, for a source that delivers the bytes [inp]. *)
From Coq Require Import ZArith.
From Verif Require Import Peg QuickModel QuickSpec QuickFacts.

Definition no_stop : qcallback := fun _ => 0%Z.
Definition all_directives : qflags := mkqf false false.
Definition only_statements : qflags := mkqf false true.

(** the running example: two statements, a command and an unfinished statement *)
Definition sample : bytes :=
  B "RETURN 1;" ++ NL :: B "// c" ++ [NL] ++ B ":play x" ++ NL ::
  B "MATCH (n) RETURN ';' ; " ++ B "RETURN 2".

Definition offsets (r : qresult) : list (bool * nat * nat * nat * bool) :=
  match r with
  | QRet _ segs => map (fun s => (qs_is_statement s, offset (qs_start s), offset (qs_end s),
                                  offset (qs_next s), qs_eof s)) segs
  | _ => []
  end.

Example sample_segments : offsets (quick_parse no_stop all_directives sample) =
  [ (true, 0, 8, 9, false); (false, 15, 22, 23, false);
    (true, 23, 43, 45, false); (true, 46, 54, 54, true) ].
Proof. vm_compute. reflexivity. Qed.

(** ** C01 *)
(** Every call returns: neither the grammar machine nor the driver loop runs
    out of steps; and more rounds than one per input byte change nothing. *)
Theorem quick_parse_terminates : forall cb fl inp,
  quick_parse cb fl inp <> QFuel /\
  forall n, List.length inp < n -> qloop n cb fl inp qexec0 = quick_parse cb fl inp.
Proof.
  intros cb fl inp. split; [|apply quick_rounds].
  destruct (quick_returns cb fl inp) as [r [segs [H _]]]. rewrite H. discriminate.
Qed.
Print Assumptions quick_parse_terminates.

(** ** C02 *)
(** The call returns 0, or the negative value the callback returned last. *)
Theorem quick_parse_never_rejects : forall cb fl inp,
  exists r segs, quick_parse cb fl inp = QRet r segs /\
    (r = 0%Z \/ (segs <> [] /\ r = cb segs /\ (r < 0)%Z)).
Proof. exact quick_returns. Qed.
Print Assumptions quick_parse_never_rejects.

Example quick_parse_negative :
  exists segs, quick_parse (fun l => if Nat.eqb (List.length l) 2 then (-7)%Z else 0%Z)
    all_directives sample = QRet (-7) segs /\ List.length segs = 2.
Proof. eexists. split; [vm_compute; reflexivity|reflexivity]. Qed.

(** ** C03 *)
(** The text is the input between the reported start and end. *)
Theorem quick_segment_text : forall cb fl inp r segs, quick_parse cb fl inp = QRet r segs ->
  forall seg, In seg segs ->
    qs_text seg = firstn (offset (qs_end seg) - offset (qs_start seg)) (skipn (offset (qs_start seg)) inp) /\
    offset (qs_start seg) <= offset (qs_end seg) /\
    offset (qs_end seg) <= offset (qs_next seg) /\
    offset (qs_next seg) <= List.length inp.
Proof.
  intros cb fl inp r segs H. apply Forall_forall. exact (quick_text cb fl inp r segs H).
Qed.
Print Assumptions quick_segment_text.

Example sample_text : match quick_parse no_stop all_directives sample with
  | QRet 0 [a; b; c; d] => (qs_text a, qs_text b, qs_text c, qs_text d) =
      (B "RETURN 1", B ":play x", B "MATCH (n) RETURN ';'", B "RETURN 2")
  | _ => False end.
Proof. vm_compute. reflexivity. Qed.

(** ** C04 *)
(** Nothing is lost: with a callback that never stops, the segments cover the
    input from its first to its last byte, in order, and each is preceded only
    by blanks and followed only by blanks and one terminator ([splits]). *)
Theorem quick_segments_partition : forall fl_only inp,
  exists segs, quick_parse no_stop (mkqf false fl_only) inp = QRet 0 segs /\
    tiles 0 segs (List.length inp) /\ splits fl_only inp 0 segs.
Proof.
  intros only inp. destruct (QuickProps.quick_segments_total only inp) as [segs H]. exists segs.
  split; [exact H|]. apply quick_splits in H. split; [eapply splits_tiles; eauto|exact H].
Qed.
Print Assumptions quick_segments_partition.

(** ** C05 *)
(** Every statement segment is the one the independent tokenisation finds... *)
Theorem quick_segment_extent : forall cb fl inp r segs, quick_parse cb fl inp = QRet r segs ->
  forall seg, In seg segs ->
    exists o, o < List.length inp /\ (statement_segment inp o seg \/ command_segment inp o seg).
Proof.
  intros cb fl inp r segs H. apply Forall_forall. revert H.
  apply (quick_splits_forall inp (fun o seg => o < List.length inp /\
    (statement_segment inp o seg \/ command_segment inp o seg))). auto.
Qed.
Print Assumptions quick_segment_extent.

(** ... in particular no semicolon that is a token by itself occurs in a
    statement before its terminator. *)
Theorem quick_semicolons_hidden : forall cb fl inp r segs, quick_parse cb fl inp = QRet r segs ->
  forall seg, In seg segs -> qs_is_statement seg = true ->
    exists o, o <= offset (qs_start seg) /\ blanks (skipn o inp) (offset (qs_start seg) - o) /\
      forall k, boundary (skipn o inp) k -> nth_error inp (o + k) = Some SEMI ->
        o + k < offset (qs_next seg) -> o + k + 1 = offset (qs_next seg).
Proof.
  intros cb fl inp r segs H seg Hin Hst.
  destruct (quick_segment_extent cb fl inp r segs H seg Hin) as [o [Ho [X|X]]].
  - exists o. destruct X as [_ [A [B [C [_ [_ [D _]]]]]]]. split; [lia|]. split; [exact C|].
    intros k Hb Hs Hk. rewrite <- nth_error_add in Hs.
    pose proof (extent_boundary _ _ D k Hb ltac:(lia) Hs). lia.
  - destruct X as [X _]. congruence.
Qed.
Print Assumptions quick_semicolons_hidden.

Example statement_segment_sample :
  exists seg, statement_segment (B "  RETURN ';' ; X") 0 seg /\ qs_text seg = B "RETURN ';'".
Proof.
  destruct (quick_segments_partition true (B "  RETURN ';' ; X")) as [segs [H [_ S]]].
  destruct segs as [|seg segs]; [vm_compute in H; discriminate|]. exists seg.
  split; [exact (splits_head _ _ _ _ S)|]. vm_compute in H. injection H as <- _. reflexivity.
Qed.

(** ** C06 *)
(** All positions are true line/column/offset triples. *)
Theorem quick_positions_true : forall cb fl inp r segs, quick_parse cb fl inp = QRet r segs ->
  forall seg p, In seg segs -> p = qs_start seg \/ p = qs_end seg \/ p = qs_next seg ->
    offset p <= List.length inp /\ p = walk position_zero (firstn (offset p) inp).
Proof.
  intros cb fl inp r segs H seg p Hin. pose proof (quick_positions cb fl inp r segs H) as K.
  rewrite Forall_forall in K. exact (K seg Hin p).
Qed.
Print Assumptions quick_positions_true.

(** [walk] counts newlines and bytes since the last newline. *)
Lemma walk_counts : forall w,
  line (walk position_zero w) = 1 + count_occ Ascii.ascii_dec w NL /\
  offset (walk position_zero w) = List.length w /\
  (forall w' v, w = w' ++ NL :: v -> ~ In NL v -> column (walk position_zero w) = 1 + List.length v) /\
  (~ In NL w -> column (walk position_zero w) = 1 + List.length w).
Proof.
  assert (K : forall w p, line (walk p w) = line p + count_occ Ascii.ascii_dec w NL /\
    (~ In NL w -> column (walk p w) = column p + List.length w)).
  { induction w as [|c w IH]; intros p; cbn [walk fold_left count_occ].
    - cbn. split; [lia|]. intros. lia.
    - fold (walk (step_position p c) w). destruct (IH (step_position p c)) as [A B]. rewrite A.
      destruct (Ascii.ascii_dec c NL) as [->|N].
      + split; [cbn; lia|]. intros X. exfalso. apply X. left. reflexivity.
      + unfold step_position. destruct (beq c NL) eqn:E; [apply QuickLex.beq_true in E; contradiction|].
        split; [cbn; lia|]. intros X. fold (walk (mkpos (line p) (S (column p)) (S (offset p))) w).
        unfold step_position in B. rewrite E in B.
        rewrite B; [cbn; lia|]. intros Y. apply X. right. exact Y. }
  intros w. destruct (K w position_zero) as [A B]. repeat split.
  - rewrite A. reflexivity.
  - rewrite QuickProps.walk_offset. reflexivity.
  - intros w' v -> Hv. rewrite QuickProofs.walk_app. cbn [walk fold_left].
    fold (walk (step_position (walk position_zero w') NL) v).
    destruct (K v (step_position (walk position_zero w') NL)) as [_ C]. rewrite C by auto. reflexivity.
  - intros X. rewrite B by auto. reflexivity.
Qed.

Example sample_positions : match quick_parse no_stop all_directives sample with
  | QRet 0 [a; b; c; d] => (qs_start b, qs_end c) = (mkpos 3 1 15, mkpos 4 21 43)
  | _ => False end.
Proof. vm_compute. reflexivity. Qed.

(** ** C07 *)
(** eof is reported exactly by a segment that ran into the end of the input;
    such a segment ends there and is the last one delivered; any other segment
    ends with a semicolon or, if a command, with a newline. *)
Theorem quick_eof : forall cb fl inp r segs, quick_parse cb fl inp = QRet r segs ->
  forall pre seg post, segs = pre ++ seg :: post ->
    (qs_eof seg = true -> post = [] /\ offset (qs_next seg) = List.length inp) /\
    (qs_eof seg = false ->
       nth_error inp (offset (qs_next seg) - 1) = Some SEMI \/
       (qs_is_statement seg = false /\ nth_error inp (offset (qs_next seg) - 1) = Some NL)) /\
    exists o, o <= offset (qs_start seg) /\
     (qs_eof seg = true <->
       (qs_is_statement seg = true /\ ~ statement_terminated (skipn o inp)) \/
       (qs_is_statement seg = false /\
        command_extent false (skipn (S (offset (qs_start seg))) inp)
          (offset (qs_next seg) - S (offset (qs_start seg))) false)).
Proof.
  intros cb fl inp r segs H pre seg post E.
  destruct (quick_segment_extent cb fl inp r segs H seg) as [o [Ho X]].
  { rewrite E. apply in_or_app. right. left. reflexivity. }
  split; [eapply quick_eof_last; eauto|]. split; [eapply segment_not_eof; eauto|].
  exists o. split; [|apply (segment_eof inp o seg X)].
  destruct X as [X|X]; destruct X as [_ [A _]]; lia.
Qed.
Print Assumptions quick_eof.

(** ** C08 *)
(** The callback sees a prefix of the segments of the input, up to and
    including the first one for which it returns non-zero. *)
Theorem quick_callback_protocol : forall cb single only inp r segs,
  quick_parse cb (mkqf single only) inp = QRet r segs ->
  exists all k, quick_parse (fun _ => 0%Z) (mkqf false only) inp = QRet 0 all /\
    segs = firstn k all /\ k <= List.length all /\
    (forall i, 1 <= i < k -> cb (firstn i all) = 0%Z) /\
    (single = true -> k <= 1) /\
    ((1 <= k /\ (0 < cb segs)%Z /\ r = 0%Z) \/
     (1 <= k /\ (cb segs < 0)%Z /\ r = cb segs) \/
     (r = 0%Z /\ (k = 0 \/ cb segs = 0%Z) /\
      k = if single then Nat.min 1 (List.length all) else List.length all)).
Proof. exact quick_protocol. Qed.
Print Assumptions quick_callback_protocol.

Theorem quick_only_statement_segments : forall cb single inp r segs,
  quick_parse cb (mkqf single true) inp = QRet r segs ->
  forall seg, In seg segs -> qs_is_statement seg = true.
Proof.
  intros cb single inp r segs H. apply Forall_forall. eapply quick_only_statements; eauto.
Qed.
Print Assumptions quick_only_statement_segments.

Example quick_stopped :
  List.length (offsets (quick_parse (fun l => if Nat.eqb (List.length l) 2 then 1%Z else 0%Z)
    all_directives sample)) = 2 /\
  List.length (offsets (quick_parse no_stop (mkqf true false) sample)) = 1 /\
  List.length (offsets (quick_parse no_stop only_statements sample)) = 3.
Proof. vm_compute. auto. Qed.

(** ** C09 *)
(** Documentation of cypher_quick_parse_segment_get_text: the text excludes
    leading and trailing comments and whitespace.  The leading part holds; of
    the trailing part only this: a statement ended by a semicolon has no
    trailing space or tab. *)
Theorem quick_text_trimmed_partial : forall cb fl inp r segs, quick_parse cb fl inp = QRet r segs ->
  forall seg, In seg segs ->
    leading_blank (qs_text seg) = false /\
    (qs_is_statement seg = true -> qs_eof seg = false ->
     forall c l, rev (qs_text seg) = c :: l -> c <> SPC /\ c <> TAB).
Proof.
  intros cb fl inp r segs H seg Hin. split.
  - revert seg Hin. apply Forall_forall. eapply quick_leading; eauto.
  - intros Hst He c l Hc.
    destruct (quick_segment_extent cb fl inp r segs H seg Hin) as [o [Ho [X|X]]];
      [|destruct X; congruence].
    destruct (quick_segment_text cb fl inp r segs H seg Hin) as [T _].
    pose proof (segment_trailing inp o seg X He T c l Hc) as S.
    split; intros ->; discriminate.
Qed.
Print Assumptions quick_text_trimmed_partial.

(** The trailing part is false: before the end of the input, before the
    semicolon of a command, and for a comment adjacent to the text. *)
Theorem quick_text_trailing_refuted :
  (exists inp seg, quick_parse no_stop all_directives inp = QRet 0 [seg] /\
     qs_is_statement seg = true /\ qs_text seg = B "RETURN 1 " /\ trailing_blank (qs_text seg) = true) /\
  (exists inp seg rest, quick_parse no_stop all_directives inp = QRet 0 (seg :: rest) /\
     qs_is_statement seg = false /\ qs_eof seg = false /\ trailing_blank (qs_text seg) = true) /\
  (exists inp seg, quick_parse no_stop all_directives inp = QRet 0 [seg] /\
     qs_is_statement seg = true /\ qs_eof seg = false /\ qs_text seg = B "RETURN 1/*c*/").
Proof.
  split; [|split].
  - exists (B "RETURN 1 "). eexists. split; [vm_compute; reflexivity|]. vm_compute. auto.
  - exists (B ":foo ;"). eexists. eexists. split; [vm_compute; reflexivity|]. vm_compute. auto.
  - exists (B "RETURN 1/*c*/;"). eexists. split; [vm_compute; reflexivity|]. vm_compute. auto.
Qed.
Print Assumptions quick_text_trailing_refuted.

(** ** C10 *)
(** Parsing what remains after a segment gives the remaining segments. *)
Theorem quick_restartable : forall only inp pre seg post,
  quick_parse no_stop (mkqf false only) inp = QRet 0 (pre ++ seg :: post) ->
  exists post', quick_parse no_stop (mkqf false only) (skipn (offset (qs_next seg)) inp) = QRet 0 post' /\
    post = map (translate_segment (qs_next seg)) post'.
Proof. exact quick_restart. Qed.
Print Assumptions quick_restartable.

Example quick_restart_sample :
  match quick_parse no_stop all_directives sample, quick_parse no_stop all_directives (skipn 23 sample) with
  | QRet 0 [a; b; c; d], QRet 0 [c'; d'] =>
      offset (qs_next b) = 23 /\ [c; d] = map (translate_segment (qs_next b)) [c'; d']
  | _, _ => False
  end.
Proof. vm_compute. auto. Qed.
