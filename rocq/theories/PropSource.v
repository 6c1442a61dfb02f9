(** * Where the bytes come from (C11, C12)

    Specification: SourceSpec.v.  Model: BufModel.v (sources, leg's buffer), SourceModel.v (the
    entry points).  [quick_parse] and [parse_each] are the models of QuickModel.v and
    CypherParse.v, which take the bytes of the input as given; the theorems of the other Prop
    files are about these. *)
From Coq Require Import List Bool Arith ZArith.
From Verif Require Import Peg BufModel QuickModel ErrModel AstModel CypherParse PropCypher SourceModel
  SourceSpec SourceProofs.
Import ListNotations.

(** ** C11 *)
(** Quick parsing: the outcome is that of the bytes, whether they come one at a time from a
    stream or in pieces of any sizes. *)
Theorem quick_chunks : forall cb fl,
  (forall s, cypher_quick_fparse cb fl s = quick_parse cb fl s) /\
  (forall l, Forall (fun c => c <> []) l ->
     quick_parse_from source_of_pieces (S (List.length (List.concat l))) (qfuel (List.concat l)) cb fl l =
     quick_parse cb fl (List.concat l)).
Proof. intros cb fl. split; [ exact (quick_stream cb fl) | exact (quick_pieces cb fl) ]. Qed.
Print Assumptions quick_chunks.

(** Parsing: the same return value, last position and segments (ranges, trees, ordinals, errors
    with their positions and messages), except for the contexts of the errors. *)
Theorem parse_chunks_partial : forall cf cb fl, ignores_contexts cb ->
  (forall s, plain_result (cypher_fparse_each cf cb fl s) = plain_result (parse_each cf whole cb fl s)) /\
  (forall l, Forall (fun c => c <> []) l ->
     plain_result (parse_each_from source_of_pieces (S (List.length (List.concat l)))
       (cfuel (List.concat l)) cf cb fl l) =
     plain_result (parse_each cf whole cb fl (List.concat l))).
Proof. intros cf cb fl H. split; [ intros s; exact (parse_stream cf cb fl s H) | intros l; exact (parse_pieces cf cb fl l H) ]. Qed.
Print Assumptions parse_chunks_partial.

(** With the contexts, and for every callback: the outcome is that of the bytes for some amount
    of look-ahead [la], which never goes beyond the bytes there are.  [la x p] is how much of the
    bytes [x] that a round starts with is in the buffer when it ends after [p] of them; the
    theorems of the other Prop files about [parse_each] hold for every [la]. *)
Theorem parse_chunks_exact : forall cf cb fl,
  (forall s, exists la : lookahead, (forall x p, la x p <= List.length x) /\
     cypher_fparse_each cf cb fl s = parse_each cf la cb fl s) /\
  (forall l, Forall (fun c => c <> []) l -> exists la : lookahead, (forall x p, la x p <= List.length x) /\
     parse_each_from source_of_pieces (S (List.length (List.concat l))) (cfuel (List.concat l)) cf cb fl l =
     parse_each cf la cb fl (List.concat l)) /\
  (forall s, List.length s <= 1024 -> exists la : lookahead, (forall x p, la x p <= List.length x) /\
     cypher_uparse_each cf cb fl s = parse_each cf la cb fl s).
Proof.
  intros cf cb fl. split; [ exact (stream_exact cf cb fl) | split; [ exact (pieces_exact cf cb fl) | ] ].
  exact (buffer_exact cf cb fl).
Qed.
Print Assumptions parse_chunks_exact.

(** The contexts do depend on it: a stream has not been read beyond the byte that decided. *)
Definition go : callback := fun _ => 0%Z.
Definition contexts (r : presult) : list (bytes * nat) :=
  match r with
  | PRet _ l _ => flat_map (fun s => flat_map (fun e => match pe_ctx e with Some c => [c] | None => [] end) (s_errors s)) l
  | _ => []
  end.

Theorem parse_chunks_contexts_refuted : exists s,
  contexts (cypher_fparse_each std_config go plain s) = [(B "X;", 0)] /\
  contexts (cypher_uparse_each std_config go plain s) = [(B "X; RETURN 1;", 0)] /\
  cypher_fparse_each std_config go plain s <> cypher_uparse_each std_config go plain s.
Proof.
  exists (B "X; RETURN 1;").
  assert (H1 : contexts (cypher_fparse_each std_config go plain (B "X; RETURN 1;")) = [(B "X;", 0)])
    by (vm_compute; reflexivity).
  assert (H2 : contexts (cypher_uparse_each std_config go plain (B "X; RETURN 1;")) = [(B "X; RETURN 1;", 0)])
    by (vm_compute; reflexivity).
  split; [ exact H1 | split; [ exact H2 | ] ].
  intros E. rewrite E, H2 in H1. vm_compute in H1. discriminate H1.
Qed.
Print Assumptions parse_chunks_contexts_refuted.

(** pieces that cut keywords, strings and line endings *)
Definition cut : list bytes :=
  [B "RET"; B "URN '"; B "a;"; B "b' ;"; [CR]; [NL]; B ":pl"; B "ay x"; [NL]; B "MATCH (n) X"].

Example cut_parsed :
  Forall (fun c => c <> []) cut /\
  match parse_each_from source_of_pieces (S (List.length (List.concat cut))) (cfuel (List.concat cut)) std_config go plain cut with
  | PRet 0%Z segs _ => List.length segs = 3 /\ map (fun s => List.length (s_errors s)) segs = [0; 0; 1]
  | _ => False
  end.
Proof. split; [ repeat constructor; discriminate | vm_compute; split; reflexivity ]. Qed.

(** ** C12 *)
(** Up to 1024 bytes, parsing a buffer is parsing its bytes. *)
Theorem quick_buffer_partial : forall cb fl s, List.length s <= 1024 ->
  cypher_quick_uparse cb fl s = quick_parse cb fl s.
Proof. exact quick_buffer. Qed.
Print Assumptions quick_buffer_partial.

Theorem parse_buffer_partial : forall cf cb fl s, ignores_contexts cb -> List.length s <= 1024 ->
  plain_result (cypher_uparse_each cf cb fl s) = plain_result (parse_each cf whole cb fl s).
Proof. exact parse_buffer. Qed.
Print Assumptions parse_buffer_partial.

Example short_buffer : List.length (List.concat cut) <= 1024 /\
  match cypher_uparse_each std_config go plain (List.concat cut) with
  | PRet 0%Z segs _ => List.length segs = 3 | _ => False end.
Proof. split; [ apply Nat.leb_le; vm_compute; reflexivity | vm_compute; reflexivity ]. Qed.

(** Beyond, the source returns to the beginning of the buffer: whatever the room [n] at the
    second read, it delivers the first bytes again. *)
Theorem buffer_restarts : forall s n, 1024 < List.length s ->
  exists d, refill source_from_buffer 0 (buf0 (mkbs s (List.length s))) = Some (true, d) /\
    m_data d = firstn 1024 s /\
    fst (source_from_buffer (m_src d) n) = firstn (Nat.min (List.length s - 1024) n) s.
Proof.
  intros s n H. destruct (second_read s n H) as (d & H1 & H2 & H3). exists d.
  split; [ exact H1 | split; [ exact H2 | ] ]. rewrite H3. reflexivity.
Qed.
Print Assumptions buffer_restarts.

(** So the parse of 1025 to 1536 bytes is that of the first 1024 followed by the first ones
    again. *)
Theorem long_buffer : forall s, 1024 < List.length s <= 1536 ->
  (forall cb fl, cypher_quick_uparse cb fl s =
     quick_parse cb fl (firstn 1024 s ++ firstn (List.length s - 1024) s)) /\
  (forall cf cb fl, ignores_contexts cb ->
     plain_result (cypher_uparse_each cf cb fl s) =
     plain_result (parse_each cf whole cb fl (firstn 1024 s ++ firstn (List.length s - 1024) s))).
Proof.
  intros s H. split.
  - intros cb fl. exact (quick_buffer_long cb fl s H).
  - intros cf cb fl Hc. exact (parse_buffer_long cf cb fl s Hc H).
Qed.
Print Assumptions long_buffer.

(** 1024 spaces and a semicolon: the semicolon is never seen. *)
Definition spaces : nat -> bytes := repeat " "%char.

Definition ends (r : presult) : list (nat * bool) :=
  match r with PRet _ l _ => map (fun s => (offset (r_end (s_range s)), s_eof s)) l | _ => [] end.

Lemma ends_plain : forall r, ends (plain_result r) = ends r.
Proof. intros [ z l k | | | | | ]; try reflexivity. cbn. rewrite map_map. reflexivity. Qed.

Lemma long_example : 1024 < List.length (spaces 1024 ++ B ";") <= 1536.
Proof. split; apply Nat.leb_le; vm_compute; reflexivity. Qed.

Theorem buffer_parsed_refuted : exists s,
  plain_result (cypher_uparse_each std_config go plain s) <>
  plain_result (parse_each std_config whole go plain s) /\
  cypher_quick_uparse (fun _ => 0%Z) (mkqf false false) s <>
  quick_parse (fun _ => 0%Z) (mkqf false false) s.
Proof.
  exists (spaces 1024 ++ B ";"). destruct (long_buffer _ long_example) as [ H1 H2 ]. split.
  - rewrite H2 by (intros l l' _; reflexivity). intros E. apply (f_equal ends) in E. rewrite !ends_plain in E.
    vm_compute in E. discriminate E.
  - rewrite H1. intros E. vm_compute in E. discriminate E.
Qed.
Print Assumptions buffer_parsed_refuted.

(** ** C46 *)
(** The buffer: states reachable by reading and by dropping a parsed prefix, from a source that
    writes no more than it is given room for. *)
Inductive reachable {T} (src : source T) : buf T -> Prop :=
| reach_start : forall s, reachable src (buf0 s)
| reach_refill : forall b ok b', reachable src b ->
    refill src (List.length (m_data b)) b = Some (ok, b') -> reachable src b'
| reach_commit : forall b p, reachable src b -> reachable src (commit p b).

(** Each read is given room for at least one byte, and the bytes held never exceed the size of
    the buffer. *)
Theorem buffer_bounds : forall T (src : source T),
  (forall s n, 0 < n -> List.length (fst (src s n)) <= n) ->
  forall b, reachable src b ->
    List.length (m_data b) <= m_size b /\
    0 < grow (m_size b) (List.length (m_data b)) - List.length (m_data b).
Proof.
  intros T src Hs b H. assert (S : sized b); [ | exact (sized_room b S) ].
  induction H as [ s | b ok b' H IH E | b p H IH ].
  - apply buf0_sized.
  - exact (refill_sized' src b ok b' Hs IH E).
  - apply commit_sized, IH.
Qed.
Print Assumptions buffer_bounds.

(** the three sources of the library keep to the room *)
Theorem sources_respect_room :
  (forall s n, 0 < n -> List.length (fst (source_from_stream s n)) <= n) /\
  (forall s n, List.length (fst (source_from_buffer s n)) <= n).
Proof. split; [ exact stream_le | exact buffer_le ]. Qed.
Print Assumptions sources_respect_room.

Example buffer_grows : exists b, reachable source_of_pieces b /\ m_size b = 2048 /\ List.length (m_data b) = 1030.
Proof.
  eexists. split.
  - eapply reach_refill; [ eapply reach_refill; [ apply (reach_start _ [spaces 1000; spaces 30]) | ] | ];
      vm_compute; reflexivity.
  - split; vm_compute; reflexivity.
Qed.
