(** * The outcome of a parse does not depend on how the bytes arrive *)
From Coq Require Import List Bool Arith Lia ZArith Sorted.
From Verif Require Import Peg PegProofs PegThunks BufModel BufProofs QuickModel QuickProofs ErrModel
  CypherSyntax CypherGrammar CypherMatch AstTypes AstModel CypherBuild CypherExec CypherParse
  CypherTables CypherRound UtilProofs SourceModel SourceSpec SourceExec.
Import ListNotations.

(** ** Sources that stand for given bytes *)

Definition sized {T} (b : buf T) : Prop :=
  MIN_ROOM <= m_size b /\ List.length (m_data b) <= m_size b.

(** the loop of yyrefill ends after at most one step, with room for the source to write to *)
Lemma size_room : forall size p, MIN_ROOM <= size -> p <= size ->
  MIN_ROOM <= grow size p - p /\ size <= grow size p.
Proof.
  intros size p H1 H2. unfold grow. destruct (Nat.ltb_spec (size - p) MIN_ROOM); lia.
Qed.

Lemma commit_sized : forall {T} (b : buf T) p, sized b -> sized (commit p b).
Proof.
  intros T b p [ H1 H2 ]. unfold sized, commit. cbn [m_size m_data]. rewrite skipn_length. lia.
Qed.

Lemma buf0_sized : forall {T} (s : T), sized (buf0 s).
Proof. intros T s. split; cbn [buf0 m_size m_data]; [ | apply Nat.le_0_l ]. apply Nat.leb_le. vm_compute. reflexivity. Qed.

(** a source that returns at most as many bytes as there is room for keeps within the buffer *)
Lemma refill_sized : forall {T} (src : source T) b ok b',
  (forall s n, List.length (fst (src s n)) <= n) ->
  sized b -> refill src (List.length (m_data b)) b = Some (ok, b') -> sized b'.
Proof.
  intros T src b ok b' Hs [ H1 H2 ] H. unfold refill in H. rewrite Nat.eqb_refl in H.
  destruct (size_room _ _ H1 H2) as [ R1 R2 ].
  specialize (Hs (m_src b) (grow (m_size b) (List.length (m_data b)) - List.length (m_data b))).
  destruct (src (m_src b) _) as [ got s' ]. injection H as _ <-. cbn [fst] in Hs.
  split; cbn [m_size m_data]; [ lia | ]. rewrite app_length. lia.
Qed.

Lemma refill_sized' : forall {T} (src : source T) b ok b',
  (forall s n, 0 < n -> List.length (fst (src s n)) <= n) ->
  sized b -> refill src (List.length (m_data b)) b = Some (ok, b') -> sized b'.
Proof.
  intros T src b ok b' Hs [ H1 H2 ] H. unfold refill in H. rewrite Nat.eqb_refl in H.
  destruct (size_room _ _ H1 H2) as [ R1 R2 ]. assert (0 < MIN_ROOM) as M by (apply Nat.ltb_lt; vm_compute; reflexivity).
  specialize (Hs (m_src b) (grow (m_size b) (List.length (m_data b)) - List.length (m_data b))
    ltac:(clear - R1 M; lia)).
  destruct (src (m_src b) _) as [ got s' ]. injection H as _ <-. cbn [fst] in Hs.
  split; cbn [m_size m_data]; [ clear - H1 R2; lia | ]. rewrite app_length. clear - Hs R1 M. lia.
Qed.

Lemma sized_room : forall {T} (b : buf T), sized b -> List.length (m_data b) <= m_size b /\
  0 < grow (m_size b) (List.length (m_data b)) - List.length (m_data b).
Proof.
  intros T b [ H1 H2 ]. split; [ exact H2 | ]. destruct (size_room _ _ H1 H2) as [ R1 _ ].
  eapply Nat.lt_le_trans; [ | exact R1 ]. apply Nat.ltb_lt. vm_compute. reflexivity.
Qed.

Definition stream_holds (b : buf bytes) (inp : bytes) : Prop :=
  sized b /\ inp = m_data b ++ m_src b.

Definition pieces_holds (b : buf (list bytes)) (inp : bytes) : Prop :=
  sized b /\ inp = m_data b ++ List.concat (m_src b) /\ Forall (fun c => c <> []) (m_src b).

Definition buffer_holds (b : buf bufsrc) (inp : bytes) : Prop :=
  sized b /\
  ((m_data b = inp /\ bs_length (m_src b) = 0) \/
   (m_data b = [] /\ m_size b = BUFFER_SIZE /\ bs_buffer (m_src b) = inp /\
    bs_length (m_src b) = List.length inp /\ List.length inp <= BUFFER_SIZE)).

Lemma stream_le : forall s n, 0 < n -> List.length (fst (source_from_stream s n)) <= n.
Proof. intros [ | c s ] n H; cbn; lia. Qed.

Lemma pieces_le : forall s n, List.length (fst (source_of_pieces s n)) <= n.
Proof. intros [ | c s ] n; cbn [source_of_pieces fst]; [ cbn; lia | rewrite firstn_length; lia ]. Qed.

Lemma buffer_le : forall s n, List.length (fst (source_from_buffer s n)) <= n.
Proof. intros s n. cbn [source_from_buffer fst]. rewrite firstn_length. lia. Qed.

Lemma commit_app : forall (d r : bytes) p, p <= List.length d -> skipn p (d ++ r) = skipn p d ++ r.
Proof. intros d r p H. rewrite skipn_app. replace (p - List.length d) with 0 by lia. reflexivity. Qed.

Lemma stream_faithful : faithful source_from_stream stream_holds.
Proof.
  split.
  - intros b inp [ _ -> ]. eauto.
  - intros b inp [ [ S1 S2 ] -> ]. unfold refill. rewrite Nat.eqb_refl.
    destruct (size_room _ _ S1 S2) as [ R1 R2 ]. assert (0 < MIN_ROOM) by (apply Nat.ltb_lt; reflexivity).
    destruct (m_src b) as [ | c s ] eqn:E; cbn [source_from_stream].
    + do 2 eexists. split; [ reflexivity | ]. unfold stream_holds, sized, ext. cbn [m_data m_size m_src].
      rewrite !app_nil_r. repeat split; auto; try lia. exists []. symmetry. apply app_nil_r.
    + do 2 eexists. split; [ reflexivity | ]. unfold stream_holds, sized, ext. cbn [m_data m_size m_src].
      rewrite !app_length, <- app_assoc. cbn [List.length app]. repeat split; auto; try lia. exists [c]. reflexivity.
  - intros b inp p [ H1 -> ] Hp. split; [ apply commit_sized, H1 | ]. cbn [commit m_data m_src].
    apply commit_app. exact Hp.
Qed.

Lemma pieces_faithful : faithful source_of_pieces pieces_holds.
Proof.
  split.
  - intros b inp (_ & -> & _). eauto.
  - intros b inp (S & -> & F). unfold refill. rewrite Nat.eqb_refl.
    pose proof S as [ S1 S2 ]. destruct (size_room _ _ S1 S2) as [ R1 R2 ].
    remember (grow (m_size b) (List.length (m_data b)) - List.length (m_data b)) as room eqn:Er.
    assert (0 < MIN_ROOM) by (apply Nat.ltb_lt; reflexivity).
    destruct (m_src b) as [ | c s ] eqn:E; cbn [source_of_pieces].
    + do 2 eexists. split; [ reflexivity | ]. unfold pieces_holds, sized, ext. cbn [m_data m_size m_src List.concat].
      rewrite !app_nil_r. repeat split; auto; try lia. exists []. symmetry. apply app_nil_r.
    + pose proof (Forall_inv F) as Hc. pose proof (Forall_inv_tail F) as Hs. destruct c as [ | x c ]; [ congruence | ].
      destruct room as [ | room ]; [ lia | ]. cbn [firstn].
      do 2 eexists. split; [ reflexivity | ]. split; [ | split ].
      * split; [ | split ]; unfold sized; cbn [m_data m_size m_src].
        -- rewrite app_length. cbn [List.length]. pose proof (firstn_le_length room c). lia.
        -- rewrite <- app_assoc. f_equal. cbn [skipn].
           assert (K : x :: c = (x :: firstn room c) ++ skipn room c) by (cbn; f_equal; symmetry; apply firstn_skipn).
           cbn [List.concat]. rewrite K at 1. rewrite <- app_assoc. f_equal.
           destruct (skipn room c); reflexivity.
        -- cbn [skipn]. destruct (skipn room c) eqn:Es; [ exact Hs | constructor; [ discriminate | exact Hs ] ].
      * unfold ext. cbn [m_data]. eauto.
      * cbn [m_data]. rewrite app_length. cbn. lia.
  - intros b inp p (H1 & -> & F) Hp. split; [ apply commit_sized, H1 | ]. cbn [commit m_data m_src].
    split; [ apply commit_app; exact Hp | exact F ].
Qed.

Lemma buffer_faithful : faithful source_from_buffer buffer_holds.
Proof.
  split.
  - intros b inp (_ & [ [ <- _ ] | (-> & _) ]); [ exists []; symmetry; apply app_nil_r | exists inp; reflexivity ].
  - intros b inp (S & H). pose proof S as [ S1 S2 ]. unfold refill. rewrite Nat.eqb_refl.
    destruct (size_room _ _ S1 S2) as [ R1 R2 ]. cbn [source_from_buffer].
    destruct H as [ [ H1 H2 ] | (H1 & H2 & H3 & H4 & H5) ].
    + rewrite H2. cbn [Nat.min firstn]. do 2 eexists. split; [ reflexivity | ].
      unfold buffer_holds, sized, ext. cbn [m_data m_size m_src bs_length bs_buffer]. rewrite !app_nil_r.
      repeat split; auto; try lia. exists []. symmetry. apply app_nil_r.
    + rewrite H1, H2, H3, H4. cbn [List.length]. rewrite Nat.sub_0_r.
      replace (grow BUFFER_SIZE 0) with BUFFER_SIZE by (vm_compute; reflexivity).
      rewrite Nat.min_l by exact H5. rewrite firstn_all, Nat.sub_diag. cbn [app].
      do 2 eexists. split; [ reflexivity | ]. unfold buffer_holds, sized, ext.
      cbn [m_data m_size m_src bs_length bs_buffer]. rewrite H2 in S1. repeat split; auto.
      * exists inp. rewrite H1. reflexivity.
      * destruct inp; [ split; [ congruence | reflexivity ] | cbn; lia ].
  - intros b inp p (H1 & H) Hp. split; [ apply commit_sized, H1 | ]. cbn [commit m_data m_src m_size].
    destruct H as [ [ <- H2 ] | (K1 & K2 & K3 & K4 & K5) ]; [ left; auto | ].
    right. rewrite K1 in Hp. cbn in Hp. assert (p = 0) as -> by lia. cbn [skipn]. auto.
Qed.

(** What a buffer of more than 1024 bytes amounts to: the second read starts again at the
    beginning.  (For up to 512 further bytes, which always fit into the room that yyrefill
    provides.) *)
Definition wrapped (s : bytes) : bytes :=
  firstn BUFFER_SIZE s ++ firstn (List.length s - BUFFER_SIZE) s.

Section Long.
Variable s : bytes.
Hypothesis Hlong : BUFFER_SIZE < List.length s <= BUFFER_SIZE + MIN_ROOM.

Definition long_holds (b : buf bufsrc) (inp : bytes) : Prop :=
  sized b /\ bs_buffer (m_src b) = s /\
  ((m_data b = [] /\ m_size b = BUFFER_SIZE /\ bs_length (m_src b) = List.length s /\ inp = wrapped s) \/
   (bs_length (m_src b) = List.length s - BUFFER_SIZE /\
    inp = m_data b ++ firstn (List.length s - BUFFER_SIZE) s) \/
   (bs_length (m_src b) = 0 /\ m_data b = inp)).

Lemma long_faithful : faithful source_from_buffer long_holds.
Proof.
  split.
  - intros b inp (_ & _ & [ (-> & _) | [ (_ & ->) | (_ & <-) ] ]);
      [ exists inp; reflexivity | eexists; reflexivity | exists []; symmetry; apply app_nil_r ].
  - intros b inp (S & Hs & H). pose proof S as [ S1 S2 ]. unfold refill. rewrite Nat.eqb_refl.
    destruct (size_room _ _ S1 S2) as [ R1 R2 ]. cbn [source_from_buffer].
    destruct H as [ (H1 & H2 & H3 & H4) | [ (H1 & H2) | (H1 & H2) ] ].
    + rewrite H1, H2, H3. cbn [List.length]. rewrite Nat.sub_0_r.
      replace (grow BUFFER_SIZE 0) with BUFFER_SIZE by (vm_compute; reflexivity).
      rewrite Nat.min_r by (clear - Hlong; lia). rewrite Hs. cbn [app].
      assert (L : List.length (firstn BUFFER_SIZE s) = BUFFER_SIZE) by (rewrite firstn_length; clear - Hlong; lia).
      do 2 eexists. split; [ reflexivity | ]. unfold long_holds, sized, ext.
      cbn [m_data m_size m_src bs_length bs_buffer].
      split; [ split; [ split; [ rewrite <- H2; exact S1 | rewrite L; apply Nat.le_refl ] | ] | ].
      * split; [ reflexivity | ]. right. left. split; [ reflexivity | exact H4 ].
      * split; [ exists (firstn BUFFER_SIZE s); rewrite H1; reflexivity | ].
        destruct (firstn BUFFER_SIZE s); [ cbn in L; unfold BUFFER_SIZE in L; discriminate L | cbn; lia ].
    + rewrite H1, Hs. rewrite Nat.min_l by (clear - R1 Hlong; lia).
      assert (L : List.length (firstn (List.length s - BUFFER_SIZE) s) = List.length s - BUFFER_SIZE)
        by (rewrite firstn_length; clear - Hlong; lia).
      do 2 eexists. split; [ reflexivity | ]. unfold long_holds, sized, ext.
      cbn [m_data m_size m_src bs_length bs_buffer]. rewrite app_length, L.
      split; [ split; [ split; [ clear - S1 R2; lia | clear - R1 Hlong; lia ] | ] | ].
      * split; [ reflexivity | ]. right. right. split; [ apply Nat.sub_diag | symmetry; exact H2 ].
      * split; [ eexists; reflexivity | ].
        destruct (firstn (List.length s - BUFFER_SIZE) s);
          [ cbn in L; exfalso; clear - L Hlong; lia | clear - Hlong; lia ].
    + rewrite H1. cbn [Nat.min firstn]. do 2 eexists. split; [ reflexivity | ].
      unfold long_holds, sized, ext. cbn [m_data m_size m_src bs_length bs_buffer]. rewrite !app_nil_r.
      split; [ | split; [ exists []; symmetry; apply app_nil_r | split; [ reflexivity | exact H2 ] ] ].
      split; [ split; [ clear - S1 R2; lia | clear - S2 R2; lia ] | ].
      split; [ exact Hs | ]. right. right. split; [ reflexivity | exact H2 ].
  - intros b inp p (H1 & Hs & H) Hp. split; [ apply commit_sized, H1 | ]. cbn [commit m_data m_src m_size].
    split; [ exact Hs | ].
    destruct H as [ (K1 & K2 & K3 & K4) | [ (K1 & ->) | (K1 & <-) ] ].
    + left. rewrite K1 in Hp. cbn in Hp. assert (p = 0) as -> by (clear - Hp; lia). cbn [skipn]. auto.
    + right. left. split; [ exact K1 | ]. apply commit_app, Hp.
    + right. right. auto.
Qed.

Lemma long_start : long_holds (buf0 (mkbs s (List.length s))) (wrapped s).
Proof. split; [ apply buf0_sized | ]. split; [ reflexivity | ]. left. auto. Qed.

Lemma wrapped_length : List.length (wrapped s) = List.length s.
Proof. unfold wrapped. rewrite app_length, !firstn_length. clear - Hlong. lia. Qed.
End Long.

(** ** The quick parser *)
Section Quick.
Context {T : Type}.
Variable src : source T.
Variable holds : buf T -> bytes -> Prop.
Hypothesis FA : faithful src holds.

Definition q_within (n : nat) (u : quser) : Prop := q_begin u <= n /\ q_end u <= n.

Lemma quick_brun : forall inp n e b, holds b inp ->
  sim src holds QG qprun inp (fun _ => true) (fun _ => false) (fun _ => false) q_within n e qst0 b.
Proof.
  intros inp n e b Hb.
  apply brun_sim with (reads := fun _ => false).
  - exact FA.
  - intros q p c c' u _. destruct q; reflexivity.
  - intros q p c u v u' l _ H. destruct q; cbn in H; congruence.
  - discriminate.
  - discriminate.
  - intros r. destruct r; reflexivity.
  - intros n' m u H [ H1 H2 ]. split; lia.
  - intros m q p c u v u' l Hp [ H1 H2 ] H. destruct q; cbn in H; injection H as _ <- _; split; cbn; lia.
  - induction e; cbn [okE]; rewrite ?andb_true_iff; auto.
  - split; [ exact Hb | apply Nat.le_0_l | split; apply Nat.le_0_l ].
Qed.

Lemma slice_firstn : forall (s g : bytes) b e, e <= List.length s -> slice (s ++ g) b e = slice s b e.
Proof.
  intros s g b e H. unfold slice. destruct (Nat.le_gt_cases b e) as [ L | L ].
  - rewrite skipn_app, firstn_app, skipn_length.
    replace (e - b - (List.length s - b)) with 0 by lia. cbn [firstn]. apply app_nil_r.
  - replace (e - b) with 0 by lia. reflexivity.
Qed.

Lemma segment_prefix : forall cb d g p u st x, q_within (List.length d) u ->
  QuickModel.segment cb (d ++ g) p u st x = QuickModel.segment cb d p u st x.
Proof.
  intros cb d g p u st x [ H1 H2 ]. unfold QuickModel.segment. rewrite (slice_firstn d g) by exact H2. reflexivity.
Qed.

Lemma qdone_prefix : forall cb d g p u l x, q_within (List.length d) u ->
  qdone cb (d ++ g) p u l x = qdone cb d p u l x.
Proof.
  intros cb d g p u l. induction l as [ | [ a q ] l IH ]; intros x H; cbn [qdone]; [ reflexivity | ].
  replace (qstep cb (d ++ g) p u a x) with (qstep cb d p u a x).
  - destruct (qstep cb d p u a x); auto.
  - destruct a; cbn [qstep]; [ symmetry; apply segment_prefix, H | reflexivity ].
Qed.

Lemma qfuel_skipn : forall k inp, qfuel (skipn k inp) <= qfuel inp.
Proof. intros k inp. unfold qfuel. rewrite skipn_length. apply Nat.mul_le_mono_r. lia. Qed.

Local Strategy expand [qrun].
Local Strategy opaque [qfuel].

Lemma qrun_more : forall inp r fuel, qfuel inp <= fuel ->
  qrun (qfuel inp) inp (PRule r) qst0 = run QG (get_of inp) qprun fuel (PRule r) qst0.
Proof.
  intros inp r fuel. pose proof (qrun_terminates inp r quser0) as H. unfold qrun in *.
  change (mkst 0 [] quser0) with qst0 in H. revert H. generalize (qfuel inp). intros k H L.
  symmetry. eapply run_mono; [ reflexivity | exact H | exact L ].
Qed.

Lemma bqround_ok : forall fuel cb r b inp x, holds b inp -> qfuel inp <= fuel ->
  match bqround src fuel cb r b x with
  | (RoundOk k x', b') => qround cb r inp x = RoundOk k x' /\ holds b' (skipn k inp)
  | (o, _) => qround cb r inp x = o
  end.
Proof.
  intros fuel cb r b inp x Hb Hf. pose proof (quick_brun inp fuel (PRule r) b Hb) as S.
  unfold bqround, qround. rewrite (qrun_more inp r fuel Hf). clear Hf. unfold sim in S.
  destruct (brun src QG qprun fuel (PRule r) qst0 b) as [ s b' | s b' | | ].
  - destruct S as ([ G1 G2 G3 ] & S2 & S3 & S4 & S5).
    rewrite (S5 inp) by (eapply between_self; eauto).
    destruct (fa_prefix _ _ FA _ _ G1) as (g & Eg).
    replace (qdone cb inp (pos s) (user s) (rev (thunks s)) x)
      with (qdone cb (m_data b') (pos s) (user s) (rev (thunks s)) x)
      by (rewrite Eg; symmetry; apply qdone_prefix, G3).
    destruct (qdone cb (m_data b') (pos s) (user s) (rev (thunks s)) x); [ | reflexivity ].
    split; [ reflexivity | ]. apply (fa_commit _ _ FA); auto.
  - destruct S as ([ G1 G2 G3 ] & S2 & S3 & S4 & S5 & S6).
    rewrite (S6 inp) by (eapply between_self; eauto). reflexivity.
  - rewrite S. reflexivity.
  - rewrite S. reflexivity.
Qed.

Lemma bqloop_ok : forall n fuel cb fl b inp x, holds b inp -> qfuel inp <= fuel ->
  bqloop src n fuel cb fl b x = qloop n cb fl inp x.
Proof.
  induction n as [ | n IH ]; intros fuel cb fl b inp x Hb Hf; cbn [bqloop qloop]; [ reflexivity | ].
  set (r := if f_only_statements fl then Qstatement else Qdirective).
  pose proof (bqround_ok fuel cb r b inp x Hb Hf) as S.
  destruct (bqround src fuel cb r b x) as [ o b' ].
  destruct o as [ k x' | | | ]; [ | rewrite S; reflexivity .. ].
  destruct S as [ -> Hb' ].
  destruct (0 <? x_result x')%Z; [ reflexivity | ]. destruct (x_result x' <? 0)%Z; [ reflexivity | ].
  destruct (x_eof x' || f_single fl); [ reflexivity | ].
  apply IH; [ exact Hb' | ]. eapply Nat.le_trans; [ apply qfuel_skipn | exact Hf ].
Qed.

Lemma quick_from_ok : forall cb fl s inp, holds (buf0 s) inp ->
  quick_parse_from src (S (List.length inp)) (qfuel inp) cb fl s = quick_parse cb fl inp.
Proof. intros cb fl s inp H. apply bqloop_ok; [ exact H | reflexivity ]. Qed.

End Quick.

(** ** The Cypher parser *)

Definition whole_buffer : lookahead := fun inp _ => List.length inp.

(** predicates that look at a byte: only the error label *)
Definition c_reads (q : pred) : bool := match q with QErr _ => true | _ => false end.
(** rules that have tried to read the byte where they start if they fail, and if they succeed *)
Definition c_spr (r : rule) : bool := match r with R__none_ => false | _ => true end.
Definition c_cpr (r : rule) : bool :=
  match r with
  | R__block_start_ | R__block_end_ | R__block_replace_ | R__block_merge_ | R__empty_ | R__none_
  | R__null_ | R__cut_ | R__line_start_ | R__error_ => false
  | _ => true
  end.

Lemma c_sp_ok : forall r, c_spr r = true -> sp c_sq c_spr c_cpr (CG r) = true.
Proof.
  intros r.
  assert (H : forallb (fun r => implb (c_spr r) (sp c_sq c_spr c_cpr (CG r))) all_rules = true)
    by (vm_compute; reflexivity).
  rewrite forallb_forall in H. specialize (H r (all_rules_complete r)).
  destruct (c_spr r); [ intros _; exact H | discriminate ].
Qed.

Lemma c_cp_ok : forall r, c_cpr r = true -> cp c_sq c_spr c_cpr (CG r) = true.
Proof.
  intros r.
  assert (H : forallb (fun r => implb (c_cpr r) (cp c_sq c_spr c_cpr (CG r))) all_rules = true)
    by (vm_compute; reflexivity).
  rewrite forallb_forall in H. specialize (H r (all_rules_complete r)).
  destruct (c_cpr r); [ intros _; exact H | discriminate ].
Qed.

Lemma c_okE : forall r, okE c_reads c_sq c_spr (CG r) = true.
Proof.
  intros r.
  assert (H : forallb (fun r => okE c_reads c_sq c_spr (CG r)) all_rules = true)
    by (vm_compute; reflexivity).
  rewrite forallb_forall in H. apply H, all_rules_complete.
Qed.

(** the errors recorded so far, and the one in preparation, are not past byte [n] *)
Definition et_within (off : position) (n : nat) (t : etrack) : Prop :=
  offset (et_pos t) <= offset off + n /\
  Forall (fun r => offset (pe_pos r) <= offset off + n) (et_errs t).

Definition c_within (off : position) (n : nat) (u : cuser) : Prop := et_within off n (c_et u).

Lemma note_within : forall off n t p c label t', et_within off n t -> offset p <= offset off + n ->
  et_note t p c label = Some t' -> et_within off n t'.
Proof.
  intros off n t p c label t' [ H1 H2 ] Hp H. unfold et_note in H.
  destruct (_ || _) in H; [ injection H as <-; split; auto | ].
  set (e1 := if negb (nonempty (et_labels t)) || (offset (et_pos t) <? offset p)
             then mket p c [] (et_errs t) (et_last t) else t) in *.
  assert (W : et_within off n e1).
  { unfold e1. destruct (_ || _); split; auto. }
  destruct (_ && _) in H; [ discriminate | ]. destruct W as [ W1 W2 ].
  destruct (existsb _ _) in H; injection H as <-; split; auto.
Qed.

Lemma cprun_within : forall col off n q p c u b u' l, p <= n -> c_within off n u ->
  cprun col off q p c u = Some (b, u', l) -> c_within off n u'.
Proof.
  intros col off n q p c u b u' l Hp Hu H. unfold c_within in *.
  destruct q; cbn [cprun] in H.
  - injection H as _ <- _. exact Hu.
  - injection H as _ <- _. exact Hu.
  - destruct (c_op u); [ | discriminate ]. injection H as _ <- _. exact Hu.
  - destruct (c_op u); [ | discriminate ]. injection H as _ <- _. exact Hu.
  - injection H as _ <- _. exact Hu.
  - injection H as _ <- _. exact Hu.
  - injection H as _ <- _. exact Hu.
  - injection H as _ <- _. cbn. destruct Hu as [ H1 H2 ]. unfold et_reify.
    destruct (et_labels (c_et u)); [ split; auto | ].
    split; cbn; [ lia | ]. apply Forall_app. split; [ exact H2 | ]. constructor; [ exact H1 | constructor ].
  - injection H as _ <- _. exact Hu.
  - destruct (do_err off p c label u) as [ v | ] eqn:E; [ | discriminate ]. injection H as _ <- _.
    unfold do_err in E. destruct (input_position off (backtrack (c_lines u) p) p) as [ ps | ] eqn:Ep; [ | discriminate ].
    destruct (et_note (c_et u) ps _ label) as [ t | ] eqn:Et; [ | discriminate ].
    injection E as <-. cbn. eapply note_within; [ exact Hu | | exact Et ].
    unfold input_position in Ep. destruct (find_line _ p) as [ [ d ls ] | ]; [ | discriminate ].
    injection Ep as <-. cbn. lia.
Qed.

Section Cypher.
Context {T : Type}.
Variable src : source T.
Variable holds : buf T -> bytes -> Prop.
Hypothesis FA : faithful src holds.

Lemma cypher_brun : forall col off inp n r s b, holds b inp -> pos s = 0 ->
  c_within off (List.length (m_data b)) (user s) ->
  sim src holds CG (cprun col off) inp c_sq c_spr c_cpr (c_within off) n (PRule r) s b.
Proof.
  intros col off inp n r s b Hb Hs Hu.
  apply brun_sim with (reads := c_reads).
  - exact FA.
  - intros q p c c' u H. destruct q; try reflexivity. discriminate H.
  - intros q p c u v u' l H E. destruct v; [ reflexivity | ]. exfalso. eapply c_sq_ok; [ exact H | exact E ].
  - exact c_sp_ok.
  - exact c_cp_ok.
  - exact c_okE.
  - intros n' m u H [ H1 H2 ]. split; [ lia | ]. eapply Forall_impl; [ | exact H2 ]. cbn. intros; lia.
  - intros m q p c u v u' l Hp H E. eapply cprun_within; eauto.
  - reflexivity.
  - split; [ exact Hb | rewrite Hs; apply Nat.le_0_l | exact Hu ].
Qed.

Lemma cfuel_skipn : forall k inp, cfuel (skipn k inp) <= cfuel inp.
Proof.
  intros k inp. unfold cfuel. rewrite skipn_length. apply Nat.mul_le_mono_r. lia.
Qed.

Lemma crun_more : forall col off inp r s fuel, pos s = 0 -> cfuel inp <= fuel ->
  crun col off (cfuel inp) inp (PRule r) s = run CG (get_of inp) (cprun col off) fuel (PRule r) s.
Proof.
  intros col off inp r s fuel Hs. pose proof (match_not_fuel col off inp r s) as H. unfold crun.
  rewrite Hs in H. specialize (H (Nat.le_0_l _)).
  revert H. generalize (cfuel inp). intros k H L.
  symmetry. eapply run_mono; [ reflexivity | exact H | exact L ].
Qed.

(** ** One round *)

Definition prel (x : bool) (r r' : pround) : Prop :=
  match r, r' with
  | RdOk p l a u, RdOk p' l' a' u' => p' = p /\ l' = l /\ u' = u /\ rel x a a'
  | RdFail, RdFail | RdAssert, RdAssert | RdInvalid, RdInvalid | RdUninit, RdUninit | RdFuel, RdFuel => True
  | _, _ => False
  end.

Lemma rel_refl : forall x a, rel x a a.
Proof. intros x a. exists (a_errs a). split; [ destruct a; reflexivity | reflexivity ]. Qed.

Lemma shape_exact : forall l l', map (shape true) l' = map (shape true) l -> l' = l.
Proof.
  induction l as [ | [ p m c ] l IH ]; intros [ | [ p' m' c' ] l' ] H; try discriminate H; [ reflexivity | ].
  cbn in H. injection H as -> -> H1 H2. rewrite (IH l' H2). destruct c, c'; cbn in H1; congruence.
Qed.

Lemma prel_exact : forall r r', prel true r r' -> r' = r.
Proof.
  intros [ p l a u | | | | | ] [ p' l' a' u' | | | | | ] H; cbn in H; try contradiction; try reflexivity.
  destruct H as (-> & -> & -> & es & -> & E). apply shape_exact in E. subst es. destruct a; reflexivity.
Qed.

Lemma prel_refl : forall x r, prel x r r.
Proof. intros x [ ]; cbn; auto using rel_refl. Qed.

(** [la]: all of the input, or what has been read of it *)
Lemma finish_prel : forall (x : bool) cf (la : lookahead) y d g s, pos s <= List.length d -> (d <> [] \/ g = []) ->
  Forall (fun t => snd t <= pos s) (thunks s) -> et_within (y_off y) (List.length d) (c_et (user s)) ->
  la (d ++ g) (pos s) = (if x then List.length d else List.length (d ++ g)) ->
  prel x (finish_one cf whole_buffer d y (ROk s)) (finish_one cf la (d ++ g) y (ROk s)).
Proof.
  intros x cf la y d g s Hp Hd Ht He Hla.
  unfold finish_one, whole_buffer. rewrite Hla.
  destruct Hd as [ Hd | -> ];
    [ | rewrite app_nil_r; replace (if x then List.length d else List.length d) with (List.length d)
          by (destruct x; reflexivity); apply prel_refl ].
  set (e := mkxe d (List.length d) (y_off y) (c_lines (user s)) (pos s)).
  set (e' := mkxe (d ++ g) (if x then List.length d else List.length (d ++ g)) (y_off y) (c_lines (user s)) (pos s)).
  set (a0 := mkas [] (y_ret y) [top_block (cf_position cf)] None [] (y_sb y) None false (y_consumed y)
               (et_errs (c_et (user s))) (y_fresh y) []).
  assert (X : xrel (R x e e') (exec e (rev (thunks s)) a0) (exec e' (rev (thunks s)) a0)).
  { apply exec_rel; try reflexivity.
    - intros ->. cbn. rewrite firstn_all, firstn_app, Nat.sub_diag, firstn_all. cbn. apply app_nil_r.
    - intros b f Hf. cbn in *. apply slice_firstn. lia.
    - cbn. apply Forall_rev, Ht.
    - split; [ apply rel_refl | ]. split; cbn.
      + constructor; [ cbn; lia | constructor ].
      + discriminate.
      + destruct He as [ _ He ]. eapply Forall_impl; [ | exact He ]. cbn. intros r Hr.
        assert (L1 : line_context d (offset (pe_pos r) - offset (y_off y)) 80 <> None).
        { destruct (line_context_ok d (offset (pe_pos r) - offset (y_off y)) 80) as (ctx & st & en & l & z & E & _);
            [ lia | exact Hd | lia | rewrite E; discriminate ]. }
        unfold near. cbn [e_limit e_inp e_off e e']. rewrite firstn_all. split; [ exact L1 | ].
        destruct x.
        * rewrite firstn_app, Nat.sub_diag, firstn_all. cbn. rewrite app_nil_r. exact L1.
        * rewrite firstn_all.
          destruct (line_context_ok (d ++ g) (offset (pe_pos r) - offset (y_off y)) 80) as (ctx & st & en & l & z & E & _);
            [ lia | destruct d; [ congruence | discriminate ] | rewrite app_length; lia | rewrite E; discriminate ]. }
  destruct (exec e (rev (thunks s)) a0) as [ a | | | ], (exec e' (rev (thunks s)) a0) as [ a' | | | ];
    cbn in X; try contradiction; try exact I.
  destruct X as [ (es & -> & E) _ ]. cbn [a_blocks a_prev a_ops set_errs].
  destruct (a_blocks a) as [ | b [ | ] ]; try exact I.
  destruct (_ && _ && _ && _ && _); [ | exact I ].
  cbn. do 3 (split; [ reflexivity | ]). exists es. auto.
Qed.

Local Strategy expand [crun].
Local Strategy opaque [cfuel].

Lemma bparse_one_ok : forall fuel cf r b inp y, entry r -> holds b inp -> cfuel inp <= fuel ->
  et_within (y_off y) (List.length (m_data b)) (y_et y) ->
  prel false (fst (bparse_one src fuel cf r b y)) (parse_one cf whole_buffer r inp y) /\
  (exists n, n <= List.length inp /\ forall la, (forall p, la inp p = n) ->
     fst (bparse_one src fuel cf r b y) = parse_one cf la r inp y) /\
  forall p l a u, fst (bparse_one src fuel cf r b y) = RdOk p l a u ->
    holds (snd (bparse_one src fuel cf r b y)) (skipn p inp) /\
    et_within (mkpos 0 0 (p + offset (y_off y)))
      (List.length (m_data (snd (bparse_one src fuel cf r b y)))) (c_et u).
Proof.
  intros fuel cf r b inp y Hr Hb Hf Hy.
  pose proof (cypher_brun (cf_color cf) (y_off y) inp fuel r (match_start y) b Hb eq_refl Hy) as S.
  setoid_rewrite parse_one_eq. rewrite (crun_more (cf_color cf) (y_off y) inp r (match_start y) fuel eq_refl Hf). clear Hf.
  unfold bparse_one. unfold sim in S.
  destruct (brun src CG (cprun (cf_color cf) (y_off y)) fuel (PRule r) (match_start y) b) as [ s b' | s b' | | ].
  - destruct S as ([ G1 G2 G3 ] & S2 & S3 & S4 & S5). cbn [fst snd].
    assert (Hx : run CG (get_of inp) (cprun (cf_color cf) (y_off y)) fuel (PRule r) (match_start y) = ROk s)
      by (apply S5; eapply between_self; eauto).
    rewrite Hx. destruct (fa_prefix _ _ FA _ _ G1) as (g & Eg).
    assert (Hd : m_data b' <> [] \/ g = []).
    { destruct (m_data b') as [ | c d ] eqn:Ed; [ | left; discriminate ]. right.
      destruct g as [ | c g ]; [ reflexivity | exfalso ].
      assert (0 < pos s); [ | cbn in G2; lia ].
      change 0 with (pos (match_start y)).
      eapply match_progress; [ exact Hr | | exact Hx ]. rewrite Eg. cbn. lia. }
    assert (Ht : Forall (fun t => snd t <= pos s) (thunks s))
      by (eapply run_tsorted; [ | exact Hx ]; split; constructor).
    split; [ | split ].
    + rewrite Eg. apply finish_prel; auto.
    + exists (List.length (m_data b')). split; [ rewrite Eg, app_length; lia | ].
      intros la Hla. symmetry. apply prel_exact. rewrite Eg in Hla |- *. apply finish_prel; auto.
    + intros p l a u E. destruct (finish_one_ok _ _ _ _ _ _ _ _ _ E) as (s1 & E1 & -> & -> & -> & _).
      injection E1 as <-. split; [ apply (fa_commit _ _ FA); auto | ].
      destruct G3 as [ W1 W2 ]. unfold et_within. cbn [m_data commit offset].
      rewrite skipn_length. split; [ lia | ].
      eapply Forall_impl; [ | exact W2 ]. cbn. intros; lia.
  - destruct S as ([ G1 _ _ ] & _ & _ & _ & _ & S6). exfalso.
    eapply (match_not_fail (cf_color cf) (y_off y) inp fuel r (match_start y) s Hr).
    apply S6. eapply between_self; eauto.
  - rewrite S. cbn. split; [ exact I | split; [ exists 0; split; [ lia | reflexivity ] | discriminate ] ].
  - rewrite S. cbn. split; [ exact I | split; [ exists 0; split; [ lia | reflexivity ] | discriminate ] ].
Qed.

Lemma plain_shape : forall l l', map (shape false) l' = map (shape false) l -> map plain_error l' = map plain_error l.
Proof.
  induction l as [ | r l IH ]; intros [ | r' l' ] H; try discriminate; [ reflexivity | ].
  cbn in H. injection H as H1 H2 _ H3. cbn. unfold plain_error at 1 3. rewrite H1, H2, (IH l' H3). reflexivity.
Qed.

Lemma plain_make : forall o r es es' roots d f, map (shape false) es' = map (shape false) es ->
  plain_segment (make_segment o r es' roots d f) = plain_segment (make_segment o r es roots d f) /\
  s_nnodes (make_segment o r es' roots d f) = s_nnodes (make_segment o r es roots d f).
Proof.
  intros o r es es' roots d f H. unfold make_segment. destruct (set_ordinals_all roots o) as [ rs m ].
  split; [ | reflexivity ]. unfold plain_segment. cbn. rewrite (plain_shape _ _ H). reflexivity.
Qed.

Lemma shape_nonempty : forall l l', map (shape false) l' = map (shape false) l -> nonempty l' = nonempty l.
Proof. intros [ | r l ] [ | r' l' ] H; try discriminate; reflexivity. Qed.

Lemma bploop_ok : forall k fuel cf cb fl b inp o y done done' last, ignores_contexts cb ->
  holds b inp -> cfuel inp <= fuel -> et_within (y_off y) (List.length (m_data b)) (y_et y) ->
  map plain_segment done = map plain_segment done' ->
  plain_result (bploop src k fuel cf cb fl b o y done last) =
  plain_result (ploop k cf whole_buffer cb fl inp o y done' last).
Proof.
  induction k as [ | k IH ]; intros fuel cf cb fl b inp o y done done' last Hcb Hb Hf Hy Hd;
    cbn [bploop ploop]; [ reflexivity | ].
  pose proof (bparse_one_ok fuel cf (start_rule fl) b inp y (start_entry fl) Hb Hf Hy) as (P1 & _ & P2).
  pose proof (round_ok cf whole_buffer (start_rule fl) inp y) as RO.
  destruct (bparse_one src fuel cf (start_rule fl) b y) as [ r b' ]. cbn [fst snd] in P1, P2.
  destruct (parse_one cf whole_buffer (start_rule fl) inp y) as [ p' l' a' u' | | | | | ];
    destruct r as [ p l a u | | | | | ]; cbn [prel] in P1; try contradiction; try reflexivity.
  destruct P1 as (-> & -> & -> & (es & -> & E)). destruct (P2 p l a u eq_refl) as [ Hb' Hw ]. clear P2.
  destruct (RO p l (set_errs a es) u (start_entry fl) eq_refl) as [ R1 _ R3 _ _ ].
  cbn [a_consumed a_result a_errs a_eof a_blocks a_ret a_sb a_fresh set_errs] in *.
  rewrite (shape_nonempty _ _ E).
  destruct (a_consumed a =? 0).
  { destruct (_ && _ && _); [ cbn; rewrite Hd; reflexivity | reflexivity ]. }
  destruct (input_position (y_off y) l (a_consumed a)) as [ en | ] eqn:Een; [ | reflexivity ].
  set (roots := match a_blocks a with b0 :: _ => b_kids b0 | [] => [] end).
  destruct (plain_make o (mkrange (y_off y) en) (a_errs a) es roots (a_result a) (a_eof a) E) as [ M1 M2 ].
  set (seg := make_segment o (mkrange (y_off y) en) (a_errs a) roots (a_result a) (a_eof a)) in *.
  set (seg' := make_segment o (mkrange (y_off y) en) es roots (a_result a) (a_eof a)) in *.
  assert (Hd' : map plain_segment (done ++ [seg]) = map plain_segment (done' ++ [seg']))
    by (rewrite !map_app, Hd; cbn [map]; rewrite M1; reflexivity).
  rewrite (Hcb _ _ Hd').
  destruct (0 <? cb (done' ++ [seg']))%Z; [ cbn [plain_result]; rewrite Hd'; reflexivity | ].
  destruct (cb (done' ++ [seg']) <? 0)%Z; [ cbn [plain_result]; rewrite Hd'; reflexivity | ].
  destruct (a_eof a || pf_single fl); [ cbn [plain_result]; rewrite Hd'; reflexivity | ].
  rewrite M2. apply IH; auto.
  - eapply Nat.le_trans; [ apply cfuel_skipn | exact Hf ].
  - unfold input_position in Een. destruct (find_line l (a_consumed a)) as [ [ dp ls ] | ]; [ | discriminate ].
    injection Een as <-. cbn [y_off y_et]. rewrite R3. destruct Hw as [ W1 W2 ]. cbn in W1. split; cbn; [ exact W1 | constructor ].
Qed.

(** The same, exactly: the contexts are those of the bytes read at the end of each round. *)
Lemma bploop_exact : forall k fuel cf cb fl b inp o y done last,
  holds b inp -> cfuel inp <= fuel -> et_within (y_off y) (List.length (m_data b)) (y_et y) ->
  exists la : lookahead, (forall x q, la x q <= List.length x) /\
    forall la' : lookahead, (forall x q, List.length x <= List.length inp -> la' x q = la x q) ->
    bploop src k fuel cf cb fl b o y done last = ploop k cf la' cb fl inp o y done last.
Proof.
  induction k as [ | k IH ]; intros fuel cf cb fl b inp o y done last Hb Hf Hy;
    [ exists whole_buffer; split; [ intros; apply Nat.le_refl | reflexivity ] | ].
  pose proof (bparse_one_ok fuel cf (start_rule fl) b inp y (start_entry fl) Hb Hf Hy) as (_ & (n & Hn & P1) & P2).
  pose proof (P1 (fun _ _ => n) (fun _ => eq_refl)) as Hr.
  pose proof (round_ok cf (fun _ _ => n) (start_rule fl) inp y) as RO. rewrite <- Hr in RO. clear Hr.
  cbn [bploop ploop].
  destruct (bparse_one src fuel cf (start_rule fl) b y) as [ r b' ]. cbn [fst snd] in P1, P2, RO.
  assert (X : exists la1 : lookahead, (forall x q, la1 x q <= List.length x) /\ forall p l a u en seg,
    r = RdOk p l a u -> a_consumed a <> 0 -> input_position (y_off y) l (a_consumed a) = Some en ->
    seg = make_segment o (mkrange (y_off y) en) (a_errs a)
            match a_blocks a with b :: _ => b_kids b | [] => [] end (a_result a) (a_eof a) ->
    List.length (skipn p inp) < List.length inp /\
    forall la', (forall x q, List.length x <= List.length (skipn p inp) -> la' x q = la1 x q) ->
    bploop src k fuel cf cb fl b' (o + s_nnodes seg)
      (mkcy en (c_op u) (et_clear_errors (et_clear_potentials (c_et u))) (a_ret a) (a_sb a) (a_consumed a) (a_fresh a)) (done ++ [seg]) (Some en) =
    ploop k cf la' cb fl (skipn p inp) (o + s_nnodes seg)
      (mkcy en (c_op u) (et_clear_errors (et_clear_potentials (c_et u))) (a_ret a) (a_sb a) (a_consumed a) (a_fresh a)) (done ++ [seg]) (Some en)).
  { destruct r as [ p l a u | | | | | ];
      try (exists whole_buffer; split; [ intros; apply Nat.le_refl | discriminate ]).
    destruct (P2 p l a u eq_refl) as [ Hb' Hw ].
    destruct (RO p l a u (start_entry fl) eq_refl) as [ R1 _ R3 _ _ ].
    destruct (input_position (y_off y) l (a_consumed a)) as [ en | ] eqn:Een;
      [ | exists whole_buffer; split; [ intros; apply Nat.le_refl | intros ? ? ? ? ? ? E; injection E as <- <- <- <-; congruence ] ].
    edestruct (IH fuel cf cb fl b' (skipn p inp)) as (la1 & L1 & L2);
      [ exact Hb' | eapply Nat.le_trans; [ apply cfuel_skipn | exact Hf ] | | ].
    2: { exists la1. split; [ exact L1 | ]. intros p' l' a' u' en' seg E Hc Hen Hseg.
         injection E as <- <- <- <-. rewrite Een in Hen. injection Hen as <-. subst seg.
         split; [ rewrite skipn_length; lia | ]. exact L2. }
    unfold input_position in Een. destruct (find_line l (a_consumed a)) as [ [ dp ls ] | ]; [ | discriminate ].
    injection Een as <-. cbn [y_off y_et]. rewrite R3. destruct Hw as [ W1 W2 ]. cbn in W1. split; cbn; [ exact W1 | constructor ]. }
  destruct X as (la1 & L1 & X).
  exists (fun x q => if List.length x =? List.length inp then n else la1 x q). split.
  { intros x q. destruct (Nat.eqb_spec (List.length x) (List.length inp)); [ lia | apply L1 ]. }
  intros la' Hla'. rewrite <- (P1 la') by (intros q; rewrite Hla', Nat.eqb_refl; auto).
  destruct r as [ p l a u | | | | | ]; try reflexivity.
  destruct (Nat.eqb_spec (a_consumed a) 0) as [ | Hc ]; [ reflexivity | ].
  destruct (input_position (y_off y) l (a_consumed a)) as [ en | ] eqn:Een; [ | reflexivity ].
  destruct (X p l a u en _ eq_refl Hc Een eq_refl) as [ Hl X' ].
  destruct (0 <? _)%Z; [ reflexivity | ]. destruct (_ <? 0)%Z; [ reflexivity | ].
  destruct (a_eof a || pf_single fl); [ reflexivity | ].
  apply X'. intros x q Hx. rewrite Hla' by lia.
  destruct (Nat.eqb_spec (List.length x) (List.length inp)); [ lia | reflexivity ].
Qed.

Lemma parse_each_from_ok : forall cf cb fl s inp, ignores_contexts cb -> holds (buf0 s) inp ->
  plain_result (parse_each_from src (S (List.length inp)) (cfuel inp) cf cb fl s) =
  plain_result (parse_each cf whole_buffer cb fl inp).
Proof.
  intros cf cb fl s inp Hcb H. unfold parse_each_from, parse_each.
  apply bploop_ok; auto. cbn. split; cbn; [ lia | constructor ].
Qed.

Lemma parse_each_from_exact : forall cf cb fl s inp, holds (buf0 s) inp ->
  exists la : lookahead, (forall x q, la x q <= List.length x) /\
  parse_each_from src (S (List.length inp)) (cfuel inp) cf cb fl s = parse_each cf la cb fl inp.
Proof.
  intros cf cb fl s inp H. unfold parse_each_from, parse_each.
  edestruct bploop_exact as (la & L1 & L2); [ exact H | apply Nat.le_refl | | exists la; split; [ exact L1 | apply L2; reflexivity ] ].
  cbn. split; cbn; [ lia | constructor ].
Qed.

End Cypher.

(** ** The sources *)

Lemma stream_start : forall s, stream_holds (buf0 s) s.
Proof. intros s. split; [ apply buf0_sized | reflexivity ]. Qed.

Lemma pieces_start : forall l, Forall (fun c => c <> []) l -> pieces_holds (buf0 l) (List.concat l).
Proof. intros l H. split; [ apply buf0_sized | ]. split; [ reflexivity | exact H ]. Qed.

Lemma buffer_start : forall s, List.length s <= BUFFER_SIZE -> buffer_holds (buf0 (mkbs s (List.length s))) s.
Proof. intros s H. split; [ apply buf0_sized | ]. right. cbn [buf0 m_data m_size m_src bs_buffer bs_length]. auto. Qed.

Lemma quick_stream : forall cb fl s, cypher_quick_fparse cb fl s = quick_parse cb fl s.
Proof. intros cb fl s. exact (quick_from_ok _ _ stream_faithful cb fl s s (stream_start s)). Qed.

Lemma quick_pieces : forall cb fl l, Forall (fun c => c <> []) l ->
  quick_parse_from source_of_pieces (S (List.length (List.concat l))) (qfuel (List.concat l)) cb fl l =
  quick_parse cb fl (List.concat l).
Proof. intros cb fl l H. exact (quick_from_ok _ _ pieces_faithful cb fl l _ (pieces_start l H)). Qed.

Lemma quick_buffer : forall cb fl s, List.length s <= BUFFER_SIZE ->
  cypher_quick_uparse cb fl s = quick_parse cb fl s.
Proof. intros cb fl s H. exact (quick_from_ok _ _ buffer_faithful cb fl _ s (buffer_start s H)). Qed.

Lemma quick_buffer_long : forall cb fl s, BUFFER_SIZE < List.length s <= BUFFER_SIZE + MIN_ROOM ->
  cypher_quick_uparse cb fl s = quick_parse cb fl (wrapped s).
Proof.
  intros cb fl s H. rewrite <- (quick_from_ok _ _ (long_faithful s H) cb fl _ _ (long_start s)).
  unfold cypher_quick_uparse, qfuel. rewrite (wrapped_length s H). reflexivity.
Qed.

Lemma parse_stream : forall cf cb fl s, ignores_contexts cb ->
  plain_result (cypher_fparse_each cf cb fl s) = plain_result (parse_each cf whole_buffer cb fl s).
Proof. intros cf cb fl s H. exact (parse_each_from_ok _ _ stream_faithful cf cb fl s s H (stream_start s)). Qed.

Lemma parse_pieces : forall cf cb fl l, ignores_contexts cb -> Forall (fun c => c <> []) l ->
  plain_result (parse_each_from source_of_pieces (S (List.length (List.concat l))) (cfuel (List.concat l)) cf cb fl l) =
  plain_result (parse_each cf whole_buffer cb fl (List.concat l)).
Proof. intros cf cb fl l Hc H. exact (parse_each_from_ok _ _ pieces_faithful cf cb fl l _ Hc (pieces_start l H)). Qed.

Lemma parse_buffer : forall cf cb fl s, ignores_contexts cb -> List.length s <= BUFFER_SIZE ->
  plain_result (cypher_uparse_each cf cb fl s) = plain_result (parse_each cf whole_buffer cb fl s).
Proof. intros cf cb fl s Hc H. exact (parse_each_from_ok _ _ buffer_faithful cf cb fl _ s Hc (buffer_start s H)). Qed.

Lemma parse_buffer_long : forall cf cb fl s, ignores_contexts cb ->
  BUFFER_SIZE < List.length s <= BUFFER_SIZE + MIN_ROOM ->
  plain_result (cypher_uparse_each cf cb fl s) = plain_result (parse_each cf whole_buffer cb fl (wrapped s)).
Proof.
  intros cf cb fl s Hc H. rewrite <- (parse_each_from_ok _ _ (long_faithful s H) cf cb fl _ _ Hc (long_start s)).
  unfold cypher_uparse_each, cfuel. rewrite (wrapped_length s H). reflexivity.
Qed.

Lemma stream_exact : forall cf cb fl s, exists la : lookahead, (forall x q, la x q <= List.length x) /\
  cypher_fparse_each cf cb fl s = parse_each cf la cb fl s.
Proof. intros cf cb fl s. exact (parse_each_from_exact _ _ stream_faithful cf cb fl s s (stream_start s)). Qed.

Lemma pieces_exact : forall cf cb fl l, Forall (fun c => c <> []) l ->
  exists la : lookahead, (forall x q, la x q <= List.length x) /\
  parse_each_from source_of_pieces (S (List.length (List.concat l))) (cfuel (List.concat l)) cf cb fl l =
  parse_each cf la cb fl (List.concat l).
Proof. intros cf cb fl l H. exact (parse_each_from_exact _ _ pieces_faithful cf cb fl l _ (pieces_start l H)). Qed.

Lemma buffer_exact : forall cf cb fl s, List.length s <= BUFFER_SIZE ->
  exists la : lookahead, (forall x q, la x q <= List.length x) /\
  cypher_uparse_each cf cb fl s = parse_each cf la cb fl s.
Proof. intros cf cb fl s H. exact (parse_each_from_exact _ _ buffer_faithful cf cb fl _ s (buffer_start s H)). Qed.

Lemma buffer_long_exact : forall cf cb fl s, BUFFER_SIZE < List.length s <= BUFFER_SIZE + MIN_ROOM ->
  exists la : lookahead, (forall x q, la x q <= List.length x) /\
  cypher_uparse_each cf cb fl s = parse_each cf la cb fl (wrapped s).
Proof.
  intros cf cb fl s H. destruct (parse_each_from_exact _ _ (long_faithful s H) cf cb fl _ _ (long_start s)) as (la & L1 & L2).
  exists la. split; [ exact L1 | ]. rewrite <- L2.
  unfold cypher_uparse_each, cfuel. rewrite (wrapped_length s H). reflexivity.
Qed.

Lemma constant_ignores : forall z, ignores_contexts (fun _ => z).
Proof. intros z l l' _. reflexivity. Qed.

(** the second read of a buffer *)
Lemma second_read : forall s n, BUFFER_SIZE < List.length s ->
  exists d, refill source_from_buffer 0 (buf0 (mkbs s (List.length s))) = Some (true, d) /\
    m_data d = firstn BUFFER_SIZE s /\
    source_from_buffer (m_src d) n =
      (firstn (Nat.min (List.length s - BUFFER_SIZE) n) s,
       mkbs s (List.length s - BUFFER_SIZE - Nat.min (List.length s - BUFFER_SIZE) n)).
Proof.
  intros s n H. unfold refill. cbn [buf0 m_data m_size m_src List.length Nat.eqb]. rewrite Nat.sub_0_r.
  replace (grow BUFFER_SIZE 0) with BUFFER_SIZE by (vm_compute; reflexivity).
  cbn [source_from_buffer bs_buffer bs_length]. rewrite Nat.min_r by (clear - H; lia).
  assert (L : List.length (firstn BUFFER_SIZE s) = BUFFER_SIZE) by (rewrite firstn_length; clear - H; lia).
  exists (mkbuf (firstn BUFFER_SIZE s) BUFFER_SIZE (mkbs s (List.length s - BUFFER_SIZE))).
  split; [ | split; reflexivity ].
  destruct (firstn BUFFER_SIZE s); [ cbn in L; unfold BUFFER_SIZE in L; discriminate L | reflexivity ].
Qed.
