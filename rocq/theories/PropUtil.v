(** * Properties of the utilities: C26, C27, C29, C38, C39

    Vocabulary: UtilSpec.v. *)
From Coq Require Import List Bool Arith ZArith Ascii String Lia Sorted.
From Verif Require Import Peg QuickModel QuickSpec ErrModel DetailModel CypherSyntax CypherGrammar CypherMatch CypherInv
  AstTypes AstModel CypherExec CypherParse CypherRound CypherSpec CypherLoop CypherChain PropCypher
  MemModel UtilSpec UtilProofs ErrChain.
Import ListNotations.

Opaque parse_one cfuel.
Strategy expand [crun].

(** ** C26 *)

(** The block that is allocated holds the message and its terminating NUL, and
    nothing else; nothing is written outside of it, whatever fresh memory
    contains. *)
Theorem error_message : forall junk col c ls, ls <> [] ->
  error_report_mem junk col c ls = Some (message col c ls ++ ["000"%char]).
Proof. intros junk col c ls H. rewrite error_report_mem_ok, report_message by exact H. reflexivity. Qed.
Print Assumptions error_message.

(** The labels of an error are the distinct labels noted at its position, in
    the order of their first note: see [history] and [labels_at]. *)

(** Every error a parse delivers carries such a message, about the byte at its
    position, for inputs in which no newline follows a backquote. *)
Theorem cypher_errors_partial : forall cf la cb fl inp ret segs last,
  bq_ok inp ->
  parse_each cf la cb fl inp = PRet ret segs last ->
  Forall (errors_described (cf_color cf) (cf_position cf) inp) segs.
Proof.
  intros cf la cb fl inp ret segs last Hbq H. apply parse_each_chain in H. destruct H as [c [Hc _]].
  exact (chain_errors _ _ _ _ _ _ _ _ (start_entry fl) Hc Hbq (quiet_0 cf)).
Qed.
Print Assumptions cypher_errors_partial.

Example message_three :
  message no_colorization "'"%char [B "a"; B "b"; B "c"] = B "Invalid input '\'': expected a, b or c".
Proof. reflexivity. Qed.
Example message_end :
  message no_colorization "000"%char [B "a label"; B "WHERE"] = B "Invalid input at end of input: expected a label or WHERE".
Proof. reflexivity. Qed.
Example message_ansi :
  error_report_mem (B "junk") ansi_colorization "x"%char [B "a"] =
  Some (ansi "[1m" ++ ansi "[31m" ++ B "Invalid input" ++ ansi "[0m" ++ B " " ++ ansi "[1m" ++ B "'x'" ++
        ansi "[0m" ++ B ": " ++ ansi "[1m" ++ B "expected a" ++ ansi "[0m" ++ ["000"%char]).
Proof. reflexivity. Qed.
Example program_message :
  match parse_each std_config whole never plain program with
  | PRet _ [_; _; s] _ => map (fun e => (e_offset e, pe_ctx e)) (s_errors s) <> []
  | _ => False end.
Proof. vm_compute. discriminate. Qed.

(** ** C27 *)

(** Without cp_et_clear_potentials in between: each report is about the
    furthest of the failures pending, those noted since the last report beyond
    it, with their labels, and consumes them. *)
Theorem furthest_failure_partial : forall col h,
  forallb (fun o => negb (is_clear o)) h = true -> consistent (notes h) ->
  exists e fs, et_run col h et_init = Some e /\ history col h fs (et_errs e).
Proof. exact history_run. Qed.
Print Assumptions furthest_failure_partial.

(** Errors come in the order of their offsets, whatever the history. *)
Theorem errors_increase : forall col h e,
  et_run col h et_init = Some e -> StronglySorted lt (map e_offset (et_errs e)).
Proof.
  intros col h e H. apply (in_sorted e). eapply run_increasing; [|exact H].
  constructor; cbn; try constructor; congruence.
Qed.
Print Assumptions errors_increase.

Definition f_at (o : nat) (l : string) : failure := mkfail (mkpos 1 o o) "x"%char (B l).

Definition some_history : list etop :=
  [ENote (f_at 3 "a"); ENote (f_at 5 "b"); ENote (f_at 4 "c"); ENote (f_at 5 "d"); ENote (f_at 5 "b"); EReify;
   ENote (f_at 5 "e"); ENote (f_at 7 "f"); EReify; EReify].

Example some_history_fits : forallb (fun o => negb (is_clear o)) some_history = true /\ consistent (notes some_history).
Proof.
  split; [reflexivity|]. intros f g Hf Hg.
  cbn in Hf, Hg. intuition (subst; cbn in *; try discriminate; auto).
Qed.
Example some_history_errors :
  option_map (fun e => map (fun x => (e_offset x, pe_msg x)) (et_errs e)) (et_run no_colorization some_history et_init) =
  Some [(5, B "Invalid input 'x': expected b or d"); (7, B "Invalid input 'x': expected f")].
Proof. reflexivity. Qed.

(** cp_et_clear_potentials keeps the position of the failures it drops, so
    later failures before that position are not reported. *)
Theorem furthest_failure_refuted : exists h fs es e,
  consistent (notes h) /\ history no_colorization h fs es /\
  et_run no_colorization h et_init = Some e /\ es <> [] /\ et_errs e = [].
Proof.
  exists [ENote (f_at 10 "a"); EClear; ENote (f_at 5 "b"); EReify], [].
  eexists. eexists. split; [|split; [|split; [reflexivity|split; [|reflexivity]]]].
  - intros f g Hf Hg. cbn in Hf, Hg. intuition (subst; cbn in *; try discriminate; auto).
  - apply (h_report _ [ENote (f_at 10 "a"); EClear; ENote (f_at 5 "b")] [f_at 5 "b"] []
             (mkerr (mkpos 1 5 5) (message no_colorization "x"%char [B "b"]) None)); [|discriminate|].
    + apply (h_note _ [ENote (f_at 10 "a"); EClear] [] []); [|constructor].
      apply (h_clear _ [ENote (f_at 10 "a")] [f_at 10 "a"] []).
      apply (h_note _ [] [] []); [constructor|constructor].
    + exists (f_at 5 "b"). split; [left; reflexivity|]. split; [split; [repeat constructor|exists (f_at 5 "b"); split; [left|]; reflexivity]|].
      repeat split.
  - discriminate.
Qed.
Print Assumptions furthest_failure_refuted.

(** ** C29 *)

(** In a buffer, for a width of at least 7 (which is required): a window of one
    line, at most as wide as asked, cut only at that width and where it shows
    dots, in which the offset points to the byte asked for.  The last part is
    proved for bytes that are neither line ends nor NUL, and from width 8 on.
    Missing: see the refutations below. *)
Theorem error_context_partial : forall buf off maxl,
  7 <= maxl -> buf <> [] -> off <= List.length buf ->
  exists ctx off', line_context buf off maxl = Some (ctx, off') /\ context_of buf off maxl ctx off'.
Proof. exact line_context_of. Qed.
Print Assumptions error_context_partial.

Example context_middle : line_context (B "one" ++ NL :: B "0123456789abcdefghij" ++ NL :: B "x") 13 10 = Some (B "...789a...", 5).
Proof. reflexivity. Qed.
Example context_start : line_context (B "one" ++ NL :: B "0123456789abcdefghij" ++ NL :: B "x") 5 10 = Some (B "0123456...", 1).
Proof. reflexivity. Qed.
Example context_whole : line_context (B "one" ++ NL :: B "0123456" ++ NL :: B "x") 5 10 = Some (B "0123456", 1).
Proof. reflexivity. Qed.
Example context_end : line_context (B "one") 3 10 = Some (B "one", 3).
Proof. reflexivity. Qed.

(** Dots although nothing was cut: the line is exactly as wide as asked. *)
Theorem error_context_dots_refuted : exists buf off maxl ctx off',
  7 <= maxl /\ off < List.length buf /\ (forall c, In c buf -> ~ eol c) /\ List.length buf <= maxl /\
  line_context buf off maxl = Some (ctx, off') /\ ctx <> buf.
Proof.
  exists (B "abcdefgh"), 2, 8. eexists. eexists. split; [lia|]. split; [cbn; lia|]. split.
  - intros c H [->| ->]; cbn in H; intuition discriminate.
  - split; [cbn; lia|]. split; [reflexivity|]. discriminate.
Qed.
Print Assumptions error_context_dots_refuted.

(** The offset points outside of the context: the byte asked for is after an
    empty line, and the context is that of an earlier line. *)
Theorem error_context_offset_refuted : exists buf off maxl ctx off',
  7 <= maxl /\ off <= List.length buf /\
  line_context buf off maxl = Some (ctx, off') /\ List.length ctx < off'.
Proof.
  exists (B "RETURN 1 X" ++ [NL; NL; NL]), 13, 80. eexists. eexists.
  split; [apply Nat.leb_le; reflexivity|]. split; [cbn; lia|]. split; [reflexivity|]. cbn. lia.
Qed.
Print Assumptions error_context_offset_refuted.

(** At width 7, the byte asked for is hidden by the dots. *)
Theorem error_context_width_refuted : exists buf off ctx off',
  off < List.length buf /\ (forall c, In c buf -> ~ eol c) /\
  line_context buf off 7 = Some (ctx, off') /\ nth_error ctx off' <> nth_error buf off.
Proof.
  exists (B "0123456789abcdefghij"), 10. eexists. eexists. split; [cbn; lia|]. split.
  - intros c H [->| ->]; cbn in H; intuition discriminate.
  - split; [reflexivity|]. discriminate.
Qed.
Print Assumptions error_context_width_refuted.

(** ** C38 *)

(** As long as no allocation fails: a vector of elements of [es] bytes behaves
    as a list, whatever fresh memory contains, and nothing outside of the block
    is touched ([vec_run] would be [None]).  Missing: failing allocations,
    refuted below. *)
Theorem vector_is_list_partial : forall es h v,
  vec_init es = Some v ->
  Forall (fun p => fst p <> None) h -> Forall (pushes_of_size es) (map snd h) ->
  exists v', vec_run h v = Some (fst (list_run (map snd h) []), v') /\
    vec_elements v' = Some (List.concat (snd (list_run (map snd h) []))).
Proof.
  intros es h v Hi Hm Hp.
  assert (Hes : 0 < es) by (unfold vec_init in Hi; destruct (0 <? es) eqn:E; [now apply Nat.ltb_lt|discriminate]).
  destruct (vec_init_ok es Hes) as (v0 & E0 & R0). rewrite Hi in E0. injection E0 as <-.
  destruct (vec_run_ok es h v [] R0 Hm Hp) as (v' & E & R). exists v'. split; [exact E|].
  destruct (vec_step_ok es [] v' _ VElements R I) as (v2 & E2 & _). cbn [vec_step list_step fst] in E2.
  destruct (vec_elements v'); [|discriminate]. injection E2 as ->. reflexivity.
Qed.
Print Assumptions vector_is_list_partial.

Definition some_vector : list (option bytes * vop) :=
  map (fun o => (Some (B "?????"), o))
    ([VPush (B "aa"); VPush (B "bb"); VPop; VPop; VPop] ++ map (fun _ => VPush (B "xy")) (seq 0 9) ++
     [VSize; VGet 3; VGet 9; VNpop 7; VElements; VLast; VClear; VLast]).
Example some_vector_fits :
  Forall (fun p => fst p <> None) some_vector /\ Forall (pushes_of_size 2) (map snd some_vector).
Proof. split; unfold some_vector; cbn; repeat constructor; discriminate. Qed.
Example some_vector_run :
  option_map (fun p => fst p) (match vec_init 2 with Some v => vec_run some_vector v | None => None end) =
  Some ([OUnit; OUnit; OElem (Some (B "bb")); OElem (Some (B "aa")); OElem None] ++ repeat OUnit 9 ++
        [OSize 9; OElem (Some (B "xy")); OElem None; OUnit; OBytes (B "xyxy"); OElem (Some (B "xy")); OUnit; OElem None]).
Proof. reflexivity. Qed.

(** A failing allocation is not noticed: the first push writes through NULL. *)
Theorem vector_failure_refuted : exists es v element,
  vec_init es = Some v /\ List.length element = es /\ vec_push None v element = None.
Proof. exists 1. eexists. exists (B "a"). split; [reflexivity|]. split; reflexivity. Qed.
Print Assumptions vector_failure_refuted.

(** ** C39 *)

(** Whichever allocations fail: the buffer holds exactly what was appended
    since the last reset (an append that fails says so and changes nothing), its
    capacity is larger than its length, nothing outside of the block is
    touched.  Missing: it is not NUL-terminated, refuted below. *)
Theorem string_buffer_partial : forall h,
  exists rs b t, sb_run h sb_init = Some (rs, b) /\ text_run (map snd h) rs [] t /\
    sb_data b = Some t /\ sb_len b = List.length t /\
    (sb_buffer b = None \/ sb_len b < sb_cap b) /\
    (Forall (fun p => fst p <> None) h -> ~ In (SbDone false) rs).
Proof.
  intros h. assert (R0 : sbrep sb_init []) by (split; [reflexivity|]; cbn; auto).
  destruct (sb_run_ok h sb_init [] R0) as (rs & b & t & E & T & R & F).
  exists rs, b, t. split; [exact E|]. split; [exact T|]. split; [now apply sb_data_ok|].
  destruct R as [R1 R2]. split; [exact R1|]. split; [|exact F].
  destruct (sb_buffer b); [right; apply R2|left; reflexivity].
Qed.
Print Assumptions string_buffer_partial.

Example some_buffer_run :
  option_map fst (sb_run [(Some [], SbData); (None, SbAppend (B "a")); (Some (B "??"), SbAppend (B "abc"));
                          (Some [], SbAppend (B "defghijkl")); (None, SbAppend (B "m")); (Some [], SbData);
                          (Some [], SbReset); (Some [], SbData)] sb_init) =
  Some [SbText []; SbDone false; SbDone true; SbDone true; SbDone true; SbText (B "abcdefghijklm"); SbDone true; SbText []].
Proof. reflexivity. Qed.

Theorem string_buffer_terminated_refuted : exists junk s b m,
  sb_append (Some junk) sb_init s = Some (true, b) /\ sb_buffer b = Some m /\
  nth_error m (sb_len b) <> Some "000"%char.
Proof.
  exists (B "????????"), (B "ab"). eexists. eexists. split; [reflexivity|]. split; [reflexivity|]. discriminate.
Qed.
Print Assumptions string_buffer_terminated_refuted.
