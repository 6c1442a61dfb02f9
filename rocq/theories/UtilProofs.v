(** * Proofs about the utilities *)
From Coq Require Import List Bool Arith Ascii String Lia Sorted.
From Verif Require Import Peg QuickModel ErrModel DetailModel DetailProofs MemModel UtilSpec.
Import ListNotations.

(** ** Blocks *)

Lemma skipn_add : forall (X : Type) (l : list X) a b, skipn a (skipn b l) = skipn (b + a) l.
Proof.
  intros X l a b. revert l. induction b as [|b IH]; intros l; [reflexivity|].
  destruct l as [|x l]; [now rewrite !skipn_nil|]. cbn [Nat.add]. rewrite !skipn_cons. apply IH.
Qed.

Lemma put_all_eq : forall s buf i, i + List.length s <= List.length buf ->
  put_all buf i s = Some (firstn i buf ++ s ++ skipn (i + List.length s) buf).
Proof.
  induction s as [|c s IH]; intros buf i H; cbn [put_all List.length] in *.
  - rewrite Nat.add_0_r. cbn. now rewrite firstn_skipn.
  - assert (Hp : put buf i c = Some (firstn i buf ++ c :: skipn (S i) buf)).
    { clear IH. revert i H. induction buf as [|x buf IHb]; intros i H; cbn in H; [lia|].
      destruct i as [|i]; cbn; [reflexivity|]. rewrite IHb by lia. reflexivity. }
    rewrite Hp. assert (Hl : List.length (firstn i buf) = i) by (rewrite firstn_length; lia).
    rewrite IH.
    + f_equal.
      assert (E1 : firstn (S i) (firstn i buf ++ c :: skipn (S i) buf) = firstn i buf ++ [c]).
      { rewrite firstn_app, Hl, firstn_all2 by lia. now replace (S i - i) with 1 by lia. }
      assert (E2 : skipn (S i + List.length s) (firstn i buf ++ c :: skipn (S i) buf) =
                   skipn (i + S (List.length s)) buf).
      { rewrite skipn_app, Hl, skipn_all2 by lia.
        replace (S i + List.length s - i) with (S (List.length s)) by lia. rewrite skipn_cons. cbn [app].
        rewrite skipn_add. f_equal. lia. }
      rewrite E1, E2, <- app_assoc. reflexivity.
    + rewrite app_length, Hl. cbn [List.length]. rewrite skipn_length. lia.
Qed.

Lemma realloc_length : forall junk p n, List.length (realloc junk p n) = n.
Proof. intros. unfold realloc. rewrite firstn_length, !app_length, repeat_length. lia. Qed.

Lemma realloc_keeps : forall junk b n m, m <= List.length b -> m <= n ->
  firstn m (realloc junk (Some b) n) = firstn m b.
Proof.
  intros. unfold realloc. rewrite firstn_firstn, Nat.min_l by lia. rewrite firstn_app.
  replace (m - List.length b) with 0 by lia. cbn. now rewrite app_nil_r.
Qed.

(** ** Vectors *)

Definition vrep (es : nat) (v : cvec) (l : list bytes) : Prop :=
  0 < es /\ v_esize v = es /\ v_len v = List.length l /\ v_len v <= v_cap v /\
  Forall (fun e => List.length e = es) l /\
  match v_elems v with
  | None => v_cap v = 0
  | Some b => List.length b = v_cap v * es /\ firstn (v_len v * es) b = List.concat l
  end.

Lemma concat_length_all : forall es (l : list bytes), Forall (fun e => List.length e = es) l ->
  List.length (List.concat l) = List.length l * es.
Proof.
  intros es l H. induction H as [|e l He Hl IH]; [reflexivity|]. cbn. rewrite app_length, IH. lia.
Qed.

Lemma concat_firstn : forall es (l : list bytes) k, Forall (fun e => List.length e = es) l ->
  firstn (k * es) (List.concat l) = List.concat (firstn k l).
Proof.
  intros es l k H. revert k. induction H as [|e l He Hl IH]; intros k; [now rewrite !firstn_nil|].
  destruct k as [|k]; [reflexivity|]. cbn [firstn List.concat]. rewrite <- IH.
  replace (S k * es) with (List.length e + k * es) by lia. now rewrite firstn_app_2.
Qed.

Lemma concat_nth : forall es (l : list bytes) k e, Forall (fun e => List.length e = es) l ->
  nth_error l k = Some e -> firstn es (skipn (k * es) (List.concat l)) = e.
Proof.
  intros es l k e H. revert k. induction H as [|x l Hx Hl IH]; intros k Hk; [now destruct k|].
  destruct k as [|k]; cbn in Hk.
  - inversion Hk; subst. cbn. rewrite firstn_app, firstn_all, Nat.sub_diag. cbn. now rewrite app_nil_r.
  - cbn [List.concat]. replace (S k * es) with (es + k * es) by lia. rewrite skipn_app, Hx.
    rewrite skipn_all2 by lia. replace (es + k * es - es) with (k * es) by lia. now apply IH.
Qed.

Lemma skipn_of_firstn : forall (b : bytes) m i k, i + k <= m -> firstn k (skipn i b) = firstn k (skipn i (firstn m b)).
Proof.
  intros b m i k H. rewrite skipn_firstn_comm, firstn_firstn. now rewrite Nat.min_l by lia.
Qed.

Lemma vec_at_ok : forall es v l k e, vrep es v l -> nth_error l k = Some e -> vec_at v k = Some e.
Proof.
  intros es v l k e (He & Hs & Hl & Hc & Hf & Hm) Hk. unfold vec_at, load.
  assert (Hlt : k < List.length l) by (apply nth_error_Some; congruence).
  destruct (v_elems v) as [b|]; [|lia]. destruct Hm as [Hb Hd]. rewrite Hs.
  assert (k * es + es <= List.length l * es) by nia.
  assert (List.length l * es <= v_cap v * es) by nia.
  rewrite (proj2 (Nat.leb_le _ _)) by lia.
  rewrite (skipn_of_firstn b (v_len v * es)) by lia. rewrite Hd.
  now rewrite (concat_nth es l k e Hf Hk).
Qed.

Lemma rep_shrink : forall es v l k, vrep es v l -> k <= List.length l ->
  vrep es (mkvec (v_esize v) (v_elems v) (v_cap v) k) (firstn k l).
Proof.
  intros es v l k (He & Hs & Hl & Hc & Hf & Hm) Hk. unfold vrep; cbn.
  split; [exact He|]. split; [exact Hs|]. split; [rewrite firstn_length; lia|]. split; [lia|].
  split; [rewrite <- (firstn_skipn k l) in Hf; now apply Forall_app in Hf|].
  destruct (v_elems v) as [b|]; [|exact Hm]. destruct Hm as [Hb Hd]. split; [exact Hb|].
  rewrite <- (concat_firstn es l k Hf), <- Hd, firstn_firstn, Nat.min_l; [reflexivity|nia].
Qed.

Lemma vec_push_ok : forall es junk v l e, vrep es v l -> List.length e = es ->
  exists v', vec_push (Some junk) v e = Some v' /\ vrep es v' (l ++ [e]).
Proof.
  intros es junk v l e (He & Hs & Hl & Hc & Hf & Hm) Hle. unfold vec_push.
  rewrite (proj2 (Nat.ltb_ge _ _)) by lia.
  set (newcap := if Nat.eqb (v_cap v) 0 then VECTOR_BLOCK else v_cap v * 2).
  set (v1 := if v_cap v <=? v_len v then _ else v).
  assert (H1 : vrep es v1 l /\ v_len v1 < v_cap v1).
  { subst v1. destruct (v_cap v <=? v_len v) eqn:E.
    - apply Nat.leb_le in E.
      assert (Hn : v_cap v < newcap).
      { subst newcap. destruct (v_cap v); cbn [Nat.eqb]; [unfold VECTOR_BLOCK|]; lia. }
      split; [|cbn; lia]. unfold vrep; cbn [v_esize v_elems v_cap v_len].
      repeat (split; [assumption || lia|]). split; [rewrite realloc_length; now rewrite Hs|].
      rewrite Hs. destruct (v_elems v) as [b|] eqn:Eb.
      + destruct Hm as [Hb Hd]. rewrite realloc_keeps by nia. exact Hd.
      + assert (List.length l = 0) by lia. destruct l; [|discriminate]. rewrite Hl. reflexivity.
    - apply Nat.leb_gt in E. split; [unfold vrep; tauto|exact E]. }
  clearbody v1. clear v Hs Hl Hc Hf Hm newcap. destruct H1 as [(_ & Hs & Hl & Hc & Hf & Hm) Hlt].
  rewrite (proj2 (Nat.ltb_lt _ _) Hlt). destruct (v_elems v1) as [b|]; [|lia]. destruct Hm as [Hb Hd].
  unfold store. destruct e as [|c e]; [cbn in Hle; lia|]. rewrite Hs.
  rewrite put_all_eq by nia. eexists; split; [reflexivity|].
  unfold vrep; cbn [v_esize v_elems v_cap v_len].
  split; [exact He|]. split; [reflexivity|]. split; [rewrite app_length; cbn; lia|]. split; [lia|].
  split; [apply Forall_app; split; [exact Hf|repeat constructor; exact Hle]|].
  rewrite Hl in *.
  assert (Hfl : List.length (firstn (List.length l * es) b) = List.length l * es) by (rewrite firstn_length; nia).
  split.
  - rewrite !app_length, Hfl, skipn_length. nia.
  - rewrite concat_app. cbn [List.concat]. rewrite app_nil_r, <- Hd.
    set (A := firstn (List.length l * es) b) in *.
    replace (S (List.length l) * es) with (List.length A + List.length (c :: e)) by lia.
    rewrite firstn_app_2. f_equal. rewrite firstn_app, Nat.sub_diag, firstn_all. apply app_nil_r.
Qed.

Lemma rev_last : forall (l : list bytes), match rev l with [] => l = [] | e :: r => l = rev r ++ [e] end.
Proof.
  intros l. destruct (rev l) as [|e r] eqn:E.
  - rewrite <- (rev_involutive l), E. reflexivity.
  - rewrite <- (rev_involutive l), E. reflexivity.
Qed.

Lemma vec_step_ok : forall es junk v l o, vrep es v l -> pushes_of_size es o ->
  exists v', vec_step (Some junk) v o = Some (fst (list_step l o), v') /\ vrep es v' (snd (list_step l o)).
Proof.
  intros es junk v l o H Ho. destruct o as [e| |n|i| | | |]; cbn [vec_step list_step pushes_of_size fst snd] in *.
  - destruct (vec_push_ok es junk v l e H Ho) as (v' & -> & Hv). eauto.
  - pose proof (rev_last l) as Hr. unfold vec_pop. destruct (rev l) as [|e r].
    + subst l. assert (v_len v = 0) as -> by apply H. cbn. eauto.
    + assert (Hlen : v_len v = S (List.length (rev r))).
      { destruct H as (_ & _ & -> & _). rewrite Hr, app_length. cbn. lia. }
      rewrite Hlen. rewrite (vec_at_ok es v l (List.length (rev r)) e H).
      * eexists; split; [reflexivity|]. cbn [snd].
        replace (rev r) with (firstn (List.length (rev r)) l) at 2
          by (rewrite Hr, firstn_app, firstn_all, Nat.sub_diag; cbn; apply app_nil_r).
        apply rep_shrink; [exact H|]. rewrite Hr, app_length. lia.
      * rewrite Hr, nth_error_app2, Nat.sub_diag by lia. reflexivity.
  - eexists; split; [reflexivity|]. unfold vec_npop. assert (Hl : v_len v = List.length l) by apply H.
    rewrite Hl. replace (List.length l - Nat.min (List.length l) n) with (List.length l - n) by lia.
    apply rep_shrink; [exact H|lia].
  - unfold vec_get. assert (Hl : v_len v = List.length l) by apply H. rewrite Hl.
    destruct (nth_error l i) as [e|] eqn:E.
    + assert (i < List.length l) by (apply nth_error_Some; congruence).
      rewrite (proj2 (Nat.ltb_lt _ _)) by lia. rewrite (vec_at_ok es v l i e H E). cbn. eauto.
    + apply nth_error_None in E. rewrite (proj2 (Nat.ltb_ge _ _)) by lia. eauto.
  - unfold vec_last. pose proof (rev_last l) as Hr. assert (Hl : v_len v = List.length l) by apply H. rewrite Hl.
    destruct (rev l) as [|e r].
    + subst l. cbn. eauto.
    + assert (Hlen : List.length l = S (List.length (rev r))) by (rewrite Hr, app_length; cbn; lia).
      rewrite Hlen. cbn [Nat.ltb Nat.leb Nat.sub]. rewrite Nat.sub_0_r.
      rewrite (vec_at_ok es v l (List.length (rev r)) e H); [cbn; eauto|].
      rewrite Hr, nth_error_app2, Nat.sub_diag by lia. reflexivity.
  - assert (Hl : v_len v = List.length l) by apply H. rewrite Hl. eauto.
  - eexists; split; [reflexivity|]. unfold vec_clear. replace [] with (firstn 0 l) by reflexivity.
    apply rep_shrink; [exact H|lia].
  - unfold vec_elements. pose proof H as (He & Hs & Hl & Hc & Hf & Hm).
    destruct (v_len v) as [|n] eqn:En.
    + destruct l; [|discriminate]. cbn. eauto.
    + unfold load. destruct (v_elems v) as [b|]; [|lia]. destruct Hm as [Hb Hd]. rewrite Hs, Nat.add_0_l.
      rewrite (proj2 (Nat.leb_le _ _)) by nia. cbn [skipn]. rewrite Hd. eauto.
Qed.

Lemma vec_run_ok : forall es h v l, vrep es v l ->
  Forall (fun p => fst p <> None) h -> Forall (pushes_of_size es) (map snd h) ->
  exists v', vec_run h v = Some (fst (list_run (map snd h) l), v') /\
             vrep es v' (snd (list_run (map snd h) l)).
Proof.
  intros es. induction h as [|[mem o] h IH]; intros v l H Hm Hp; cbn [vec_run map snd list_run].
  - eexists; split; [reflexivity|exact H].
  - inversion Hm as [|? ? Hm1 Hm2]; subst. cbn [map snd] in Hp. inversion Hp as [|? ? Hp1 Hp2]; subst. cbn in Hm1.
    destruct mem as [junk|]; [|congruence].
    destruct (vec_step_ok es junk v l o H Hp1) as (v1 & -> & H1).
    destruct (list_step l o) as [r l1]. cbn [fst snd] in *.
    destruct (IH v1 l1 H1 Hm2 Hp2) as (v2 & -> & H2).
    destruct (list_run (map snd h) l1) as [rs l2]. cbn [fst snd] in *. eauto.
Qed.

Lemma vec_init_ok : forall es, 0 < es -> exists v, vec_init es = Some v /\ vrep es v [].
Proof.
  intros es H. unfold vec_init. rewrite (proj2 (Nat.ltb_lt _ _) H). eexists; split; [reflexivity|].
  unfold vrep; cbn. repeat split; auto.
Qed.

(** ** String buffers *)

Definition sbrep (b : sbuf) (t : bytes) : Prop :=
  sb_len b = List.length t /\
  match sb_buffer b with
  | None => sb_cap b = 0 /\ t = []
  | Some m => List.length m = sb_cap b /\ sb_len b < sb_cap b /\ firstn (sb_len b) m = t
  end.

Lemma sb_append_ok : forall mem b t s, sbrep b t ->
  exists r b', sb_append mem b s = Some (r, b') /\
    sbrep b' (if r then t ++ s else t) /\ (r = false -> mem = None) /\ (r = true -> sb_buffer b' <> None).
Proof.
  intros mem b t s [Hl Hm]. unfold sb_append.
  assert (Hle : sb_len b <= sb_cap b) by (destruct (sb_buffer b); [lia|]; destruct Hm as [-> ->]; cbn in *; lia).
  rewrite (proj2 (Nat.ltb_ge _ _) Hle).
  assert (W : forall b0 m, sb_buffer b0 = Some m -> sbrep b0 t -> sb_len b0 + List.length s < sb_cap b0 ->
    exists b', sb_write b0 s = Some (true, b') /\ sbrep b' (t ++ s) /\ sb_buffer b' <> None).
  { intros b0 m Eb [Hl0 Hm0] Hlt. rewrite Eb in Hm0. destruct Hm0 as (Hb & _ & Hd).
    unfold sb_write. rewrite (proj2 (Nat.ltb_lt _ _) Hlt). rewrite Eb. unfold store.
    destruct s as [|c s].
    - eexists; split; [reflexivity|]. split; [|cbn; discriminate]. unfold sbrep; cbn. rewrite Nat.add_0_r, app_nil_r in *.
      split; [exact Hl0|]. auto.
    - rewrite put_all_eq by lia. eexists; split; [reflexivity|]. split; [|cbn; discriminate].
      unfold sbrep; cbn [sb_buffer sb_cap sb_len].
      split; [rewrite app_length; lia|]. rewrite Hd.
      split; [rewrite !app_length, skipn_length; cbn [List.length] in *; lia|]. split; [lia|].
      rewrite Hl0, firstn_app_2. f_equal. rewrite firstn_app, Nat.sub_diag. cbn [firstn]. rewrite app_nil_r.
      now rewrite firstn_all2 by lia. }
  destruct (sb_cap b <=? sb_len b + List.length s) eqn:E.
  - destruct mem as [junk|].
    + set (newcap := (sb_len b + List.length s + 3 * SB_BLOCK / 2) / SB_BLOCK * SB_BLOCK).
      assert (Hn : sb_len b + List.length s < newcap).
      { subst newcap. change (3 * SB_BLOCK / 2) with 12. change SB_BLOCK with 8.
        set (x := sb_len b + List.length s).
        pose proof (Nat.div_mod (x + 12) 8 ltac:(lia)). pose proof (Nat.mod_upper_bound (x + 12) 8 ltac:(lia)). lia. }
      clearbody newcap.
      destruct (W (mksb (Some (realloc junk (sb_buffer b) newcap)) newcap (sb_len b)) _ eq_refl) as (b' & E' & Hr & Hb).
      * split; [exact Hl|]. cbn. rewrite realloc_length. split; [reflexivity|]. split; [lia|].
        destruct (sb_buffer b) as [m|].
        -- destruct Hm as (Hb & _ & Hd). rewrite realloc_keeps by lia. exact Hd.
        -- destruct Hm as [_ ->]. rewrite Hl. reflexivity.
      * exact Hn.
      * exists true, b'. split; [exact E'|]. split; [exact Hr|]. split; [discriminate|auto].
    + exists false, b. split; [reflexivity|]. split; [split; assumption|]. split; [reflexivity|discriminate].
  - apply Nat.leb_gt in E. destruct (sb_buffer b) as [m|] eqn:Eb.
    + destruct (W b m Eb) as (b' & E' & Hr & Hb); [split; [exact Hl|]; rewrite Eb; exact Hm|exact E|].
      exists true, b'. split; [exact E'|]. split; [exact Hr|]. split; [discriminate|auto].
    + destruct Hm as [Hc _]. lia.
Qed.

Lemma sb_data_ok : forall b t, sbrep b t -> sb_data b = Some t.
Proof.
  intros b t [Hl Hm]. unfold sb_data. destruct (sb_len b) as [|n] eqn:E.
  - destruct t; [reflexivity|discriminate].
  - destruct (sb_buffer b) as [m|].
    + destruct Hm as (Hb & Hc & Hd). unfold load. rewrite Nat.add_0_l, (proj2 (Nat.leb_le _ _)) by lia. cbn [skipn]. now rewrite Hd.
    + destruct Hm as [_ ->]. discriminate.
Qed.

Lemma sb_run_ok : forall h b t, sbrep b t ->
  exists rs b' t', sb_run h b = Some (rs, b') /\ text_run (map snd h) rs t t' /\ sbrep b' t' /\
    (Forall (fun p => fst p <> None) h -> ~ In (SbDone false) rs).
Proof.
  induction h as [|[mem o] h IH]; intros b t H; cbn [sb_run map snd].
  - exists [], b, t. split; [reflexivity|]. split; [constructor|]. split; [exact H|]. intros _ [].
  - destruct o as [s| | |]; cbn [sb_step].
    + destruct (sb_append_ok mem b t s H) as (r & b1 & -> & H1 & Hf & _).
      destruct (IH b1 _ H1) as (rs & b2 & t2 & -> & Ht & H2 & Hn).
      exists (SbDone r :: rs), b2, t2. split; [reflexivity|]. split; [destruct r; now constructor|].
      split; [exact H2|]. intros Hm. inversion Hm as [|? ? Hm1 Hm2]; subst. cbn in Hm1. intros [Hi|Hi].
      * inversion Hi; subst. now rewrite Hf in Hm1.
      * now apply Hn in Hi.
    + destruct (IH (sb_reset b) []) as (rs & b2 & t2 & -> & Ht & H2 & Hn).
      { destruct H as [Hl Hm]. split; [reflexivity|]. cbn. destruct (sb_buffer b); [|tauto].
        destruct Hm as (Hb & Hc & Hd). split; [exact Hb|]. split; [lia|reflexivity]. }
      exists (SbDone true :: rs), b2, t2. split; [reflexivity|]. split; [now constructor|]. split; [exact H2|].
      intros Hm. inversion Hm; subst. intros [Hi|Hi]; [discriminate|]. now apply Hn in Hi.
    + destruct (IH (sb_cleanup b) []) as (rs & b2 & t2 & -> & Ht & H2 & Hn).
      { split; [reflexivity|]. cbn. auto. }
      exists (SbDone true :: rs), b2, t2. split; [reflexivity|]. split; [now constructor|]. split; [exact H2|].
      intros Hm. inversion Hm; subst. intros [Hi|Hi]; [discriminate|]. now apply Hn in Hi.
    + rewrite (sb_data_ok b t H).
      destruct (IH b t H) as (rs & b2 & t2 & -> & Ht & H2 & Hn).
      exists (SbText t :: rs), b2, t2. split; [reflexivity|]. split; [now constructor|]. split; [exact H2|].
      intros Hm. inversion Hm; subst. intros [Hi|Hi]; [discriminate|]. now apply Hn in Hi.
Qed.

(** ** Error reports *)

Lemma described_ok : forall c, chardesc c = described c.
Proof. intros [[] [] [] [] [] [] [] []]; vm_compute; reflexivity. Qed.

Lemma write_labels_enum : forall ls, ls <> [] -> write_labels ls = B " " ++ enumeration ls.
Proof.
  induction ls as [|l ls IH]; intros Hn; [congruence|].
  destruct ls as [|m ls]; [cbn; now rewrite !app_nil_r|].
  destruct ls as [|k ls].
  - cbn. rewrite !app_nil_r. reflexivity.
  - specialize (IH ltac:(discriminate)).
    change (write_labels (l :: m :: k :: ls)) with (B " " ++ l ++ B "," ++ write_labels (m :: k :: ls)).
    rewrite IH. change (enumeration (l :: m :: k :: ls)) with (l ++ B ", " ++ enumeration (m :: k :: ls)).
    cbn. reflexivity.
Qed.

Lemma report_message : forall col c ls, ls <> [] -> error_report col c ls = message col c ls.
Proof.
  intros col c ls H. unfold error_report, et_prefix, message. rewrite write_labels_enum by exact H.
  rewrite described_ok, <- !app_assoc. reflexivity.
Qed.

(** the size computed is the size needed *)
Lemma report_cap : forall col c ls, error_report_cap col c ls = S (List.length (error_report col c ls)).
Proof.
  intros col c ls. unfold error_report_cap, error_report.
  rewrite !app_length. change (List.length (B "expected")) with 8.
  destruct ls as [|l ls]; [cbn; lia|].
  assert (F : forall (l : list bytes) n, fold_left (fun n l => n + (List.length l + 2)) l n =
     n + List.length (List.concat l) + 2 * List.length l).
  { induction l0 as [|x l0 IH]; intros n; cbn [fold_left List.concat List.length]; [lia|].
    rewrite IH, app_length. lia. }
  rewrite F, rev_length.
  assert (R : List.length (List.concat (rev (l :: ls))) = List.length (List.concat (l :: ls))).
  { clear. generalize (l :: ls). intros x. induction x as [|y x IH]; [reflexivity|]. cbn.
    rewrite concat_app, !app_length, IH. cbn. rewrite app_nil_r. lia. }
  rewrite R.
  assert (W : forall ls : list bytes, ls <> [] ->
    List.length (write_labels ls) + 1 = List.length (List.concat ls) + 2 * List.length ls +
      (if Nat.ltb 1 (List.length ls) then 2 else 0)).
  { clear. induction ls as [|l ls IH]; intros H; [congruence|]. destruct ls as [|m ls].
    - cbn. rewrite !app_nil_r. lia.
    - specialize (IH ltac:(discriminate)).
      change (write_labels (l :: m :: ls)) with
        (B " " ++ l ++ (match ls with [] => B " or" | _ => B "," end) ++ write_labels (m :: ls)).
      rewrite !app_length. change (List.length (B " ")) with 1.
      replace (List.length (write_labels (m :: ls))) with (List.length (write_labels (m :: ls)) + 1 - 1) by lia.
      rewrite IH. cbn [List.concat List.length]. rewrite !app_length.
      destruct ls as [|k ls]; cbn [List.length Nat.ltb Nat.leb];
        [change (List.length (B " or")) with 3|change (List.length (B ",")) with 1]; lia. }
  specialize (W (l :: ls) ltac:(discriminate)). lia.
Qed.

(** writing piece after piece *)
Lemma put_all_next : forall s done rest, List.length s <= List.length rest ->
  put_all (done ++ rest) (List.length done) s = Some (done ++ s ++ skipn (List.length s) rest).
Proof.
  intros s done rest H. rewrite put_all_eq by (rewrite app_length; lia). f_equal.
  rewrite firstn_app, firstn_all, Nat.sub_diag. cbn [firstn]. rewrite app_nil_r. f_equal. f_equal.
  rewrite skipn_app, skipn_all2 by lia. cbn. f_equal. lia.
Qed.

Lemma write_labels_at_ok : forall ls done rest, List.length (write_labels ls) <= List.length rest ->
  write_labels_at (done ++ rest) (List.length done) ls =
  Some (done ++ write_labels ls ++ skipn (List.length (write_labels ls)) rest,
        List.length done + List.length (write_labels ls)).
Proof.
  induction ls as [|l ls IH]; intros done rest H.
  - cbn. now rewrite Nat.add_0_r.
  - cbn [write_labels_at].
    set (mid := match ls with [] => [] | [_] => B " or" | _ :: _ :: _ => B "," end).
    assert (E : write_labels (l :: ls) = B " " ++ l ++ mid ++ write_labels ls) by reflexivity.
    rewrite E in *. rewrite !app_length in H. change (List.length (B " ")) with 1 in H.
    rewrite put_all_next by (change (List.length (B " ")) with 1; lia). change (List.length (B " ")) with 1.
    rewrite app_assoc.
    replace (List.length done + 1) with (List.length (done ++ B " ")) by (rewrite app_length; reflexivity).
    rewrite put_all_next by (rewrite skipn_length; lia). rewrite skipn_add, app_assoc.
    replace (List.length (done ++ B " ") + List.length l) with (List.length ((done ++ B " ") ++ l)) by (rewrite app_length; lia).
    destruct ls as [|m ls].
    + cbn [write_labels app]. cbn in mid. subst mid. rewrite !app_nil_r, <- !app_assoc. cbn. f_equal. f_equal.
      rewrite app_length. cbn. lia.
    + assert (P : forall x, List.length x + List.length (write_labels (m :: ls)) + 1 + List.length l <= List.length rest ->
        put_all (((done ++ B " ") ++ l) ++ skipn (1 + List.length l) rest) (List.length ((done ++ B " ") ++ l)) x =
        Some ((((done ++ B " ") ++ l) ++ x) ++ skipn (1 + List.length l + List.length x) rest)).
      { intros x Hx. rewrite put_all_next by (rewrite skipn_length; lia). rewrite skipn_add, app_assoc. reflexivity. }
      destruct ls as [|k ls]; subst mid.
      * rewrite P by lia.
        replace (List.length ((done ++ B " ") ++ l) + 3) with (List.length (((done ++ B " ") ++ l) ++ B " or"))
          by (rewrite (app_length _ (B " or")); reflexivity).
        rewrite IH by (rewrite skipn_length; lia). rewrite skipn_add.
        rewrite !app_length, <- !app_assoc. f_equal. f_equal; [|cbn [List.length B list_ascii_of_string]; lia].
        do 5 f_equal. f_equal. cbn [List.length B list_ascii_of_string]. lia.
      * rewrite P by lia.
        replace (List.length ((done ++ B " ") ++ l) + 1) with (List.length (((done ++ B " ") ++ l) ++ B ","))
          by (rewrite (app_length _ (B ",")); reflexivity).
        rewrite IH by (rewrite skipn_length; lia). rewrite skipn_add.
        rewrite !app_length, <- !app_assoc. f_equal. f_equal; [|cbn [List.length B list_ascii_of_string]; lia].
        do 5 f_equal. f_equal. cbn [List.length B list_ascii_of_string]. lia.
Qed.

Lemma error_report_mem_ok : forall junk col c ls,
  error_report_mem junk col c ls = Some (error_report col c ls ++ [NUL]).
Proof.
  intros junk col c ls. unfold error_report_mem. rewrite report_cap.
  set (len := S (List.length (error_report col c ls))).
  set (buf := realloc junk None len). assert (Hb : List.length buf = len) by apply realloc_length. clearbody buf.
  set (pre := et_prefix col c). set (m0 := fst (col_message col)). set (m1 := snd (col_message col)).
  assert (Hlen : len = List.length pre + List.length m0 + 8 + List.length (write_labels ls) + List.length m1 + 1).
  { subst len. unfold error_report. rewrite !app_length. fold pre m0 m1. change (List.length (B "expected")) with 8. lia. }
  assert (Hlen2 : len = S (List.length (error_report col c ls))) by reflexivity. clearbody len.
  assert (Hpre : exists rest, wexec len (WPrintf pre) (buf, 0) = Some (pre ++ rest, List.length pre) /\
    List.length rest = len - List.length pre).
  { unfold wexec. rewrite (proj2 (Nat.ltb_lt 0 len)) by lia. rewrite Nat.sub_0_r.
    assert (Hk : exists k, len = S k /\ List.length pre <= k) by (exists (List.length (error_report col c ls)); lia).
    destruct Hk as (k & Hk & Hk2). rewrite Hk in *. cbv iota. rewrite firstn_all2 by lia.
    rewrite put_all_eq by (rewrite app_length; cbn [List.length]; lia). cbn [option_map firstn app Nat.add].
    eexists (NUL :: skipn (List.length (pre ++ [NUL])) buf). split.
    - rewrite <- app_assoc. reflexivity.
    - cbn [List.length]. rewrite skipn_length, app_length. cbn [List.length]. lia. }
  destruct Hpre as (rest & -> & Hr). cbn [fst snd].
  rewrite put_all_next by lia. rewrite app_assoc, <- app_length.
  rewrite put_all_next by (rewrite !skipn_length; change (List.length (B "expected")) with 8; lia). rewrite skipn_add, app_assoc.
  change 8 with (List.length (B "expected")). rewrite <- (app_length (pre ++ m0)).
  rewrite write_labels_at_ok by (rewrite !skipn_length; change (List.length (B "expected")) with 8; lia). rewrite skipn_add, app_assoc.
  rewrite <- (app_length ((pre ++ m0) ++ B "expected") (write_labels ls)).
  rewrite put_all_next by (rewrite !skipn_length, ?app_length; change (List.length (B "expected")) with 8; lia). rewrite skipn_add, app_assoc.
  rewrite <- (app_length (((pre ++ m0) ++ B "expected") ++ write_labels ls) m1).
  set (T := (((pre ++ m0) ++ B "expected") ++ write_labels ls) ++ m1).
  assert (HT : T = error_report col c ls).
  { subst T pre m0 m1. unfold error_report. now rewrite <- !app_assoc. }
  assert (HTl : List.length T = List.length (error_report col c ls)) by now rewrite HT.
  rewrite (proj2 (Nat.ltb_lt _ _)) by lia.
  set (last := skipn _ rest).
  assert (Hl : List.length last = 1).
  { subst last. rewrite skipn_length, ?app_length. change (List.length (B "expected")) with 8. lia. }
  destruct last as [|x [|y last]]; try discriminate.
  clearbody T. rewrite HT. clear. induction (error_report col c ls) as [|b t IH]; cbn; [reflexivity|]. now rewrite IH.
Qed.

(** ** Error tracking *)

Definition note_all (fs : list failure) (e : etrack) : option etrack :=
  fold_left (fun o f => match o with Some e => et_note e (f_pos f) (f_char f) (f_label f) | None => None end) fs (Some e).

(** the failures that count: not before the position kept from earlier, and
    beyond the last error *)
Definition counts (e : etrack) (f : failure) : bool :=
  negb (f_off f <? offset (et_pos e)) && negb (nonempty (et_errs e) && (f_off f <=? et_last e)).

Lemma bytes_eqb_eq : forall a b, bytes_eqb a b = true <-> a = b.
Proof. intros. unfold bytes_eqb. destruct (list_eq_dec _ a b); split; congruence. Qed.

Lemma firsts_app : forall l x, firsts (l ++ [x]) = if existsb (bytes_eqb x) (firsts l) then firsts l else firsts l ++ [x].
Proof.
  induction l as [|y l IH]; intros x; [reflexivity|]. cbn [app firsts existsb]. rewrite IH.
  destruct (bytes_eqb x y) eqn:E.
  - apply bytes_eqb_eq in E. subst y. cbn [orb].
    destruct (existsb (bytes_eqb x) (firsts l)) eqn:Ex; [reflexivity|].
    rewrite filter_app. cbn. rewrite (proj2 (bytes_eqb_eq x x) eq_refl). cbn. now rewrite app_nil_r.
  - assert (Eyx : bytes_eqb y x = false).
    { destruct (bytes_eqb y x) eqn:E2; [|reflexivity]. apply bytes_eqb_eq in E2. subst.
      now rewrite (proj2 (bytes_eqb_eq x x) eq_refl) in E. }
    assert (Ef : existsb (bytes_eqb x) (filter (fun z => negb (bytes_eqb y z)) (firsts l)) = existsb (bytes_eqb x) (firsts l)).
    { clear IH. induction (firsts l) as [|z zs IHz]; [reflexivity|]. cbn. destruct (bytes_eqb y z) eqn:Ez; cbn.
      - apply bytes_eqb_eq in Ez. subst z. now rewrite E, IHz.
      - now rewrite IHz. }
    rewrite Ef. cbn [orb]. destruct (existsb (bytes_eqb x) (firsts l)); [reflexivity|].
    rewrite filter_app. cbn. now rewrite Eyx.
Qed.

(** what has been tracked after the failures [fs], starting from [e0] without
    pending labels *)
Definition at_furthest (e0 : etrack) (cs : list failure) (e : etrack) : Prop :=
  (cs = [] /\ et_labels e = [] /\ et_pos e = et_pos e0) \/
  exists f, In f cs /\ furthest (f_off f) cs /\ et_pos e = f_pos f /\ et_char e = f_char f /\
    et_labels e = labels_at (f_off f) cs /\ et_labels e <> [].

Definition tracked (e0 : etrack) (fs : list failure) (e : etrack) : Prop :=
  et_errs e = et_errs e0 /\ et_last e = et_last e0 /\ at_furthest e0 (filter (counts e0) fs) e.

Lemma labels_at_snoc : forall o cs f, labels_at o (cs ++ [f]) =
  if Nat.eqb (f_off f) o
  then (if existsb (bytes_eqb (f_label f)) (labels_at o cs) then labels_at o cs else labels_at o cs ++ [f_label f])
  else labels_at o cs.
Proof.
  intros o cs f. unfold labels_at. rewrite filter_app. cbn [filter].
  destruct (Nat.eqb (f_off f) o); [|now rewrite app_nil_r].
  rewrite map_app. cbn [map]. apply firsts_app.
Qed.

Lemma labels_at_beyond : forall o cs, Forall (fun f => f_off f < o) cs -> labels_at o cs = [].
Proof.
  intros o cs H. unfold labels_at. replace (filter (fun f => Nat.eqb (f_off f) o) cs) with (@nil failure); [reflexivity|].
  induction H as [|f cs Hf Hc IH]; [reflexivity|]. cbn. rewrite (proj2 (Nat.eqb_neq _ _)) by lia. exact IH.
Qed.

Lemma note_tracked : forall e0 fs e f, et_labels e0 = [] -> consistent (fs ++ [f]) -> tracked e0 fs e ->
  exists e', et_note e (f_pos f) (f_char f) (f_label f) = Some e' /\ tracked e0 (fs ++ [f]) e'.
Proof.
  intros e0 fs e f Hl0 Hcon (He & Hla & Ht). unfold tracked. rewrite filter_app. cbn [filter].
  unfold et_note. rewrite He, Hla. fold (f_off f).
  set (cs := filter (counts e0) fs) in *.
  assert (Hsub : forall g, In g cs -> In g fs) by (intros g Hg; apply filter_In in Hg; tauto).
  destruct (counts e0 f) eqn:Ec.
  - assert (Ec' := Ec). unfold counts in Ec'. apply andb_true_iff in Ec'. destruct Ec' as [Ec1 Ec2].
    apply negb_true_iff in Ec1, Ec2. rewrite Ec2, orb_false_r. apply Nat.ltb_ge in Ec1.
    destruct Ht as [(Ecs & Hlab & Hpos) | (g & Hg & [Hmax Hex] & Hp & Hch & Hlab & Hne)].
    + rewrite Ecs. rewrite Hpos, (proj2 (Nat.ltb_ge _ _) Ec1).
      rewrite Hlab. cbn [nonempty negb orb et_labels andb existsb et_pos et_char et_errs et_last app].
      eexists; split; [reflexivity|]. cbn [et_errs et_last et_pos et_char et_labels]. split; [first [reflexivity | exact He]|]. split; [first [reflexivity | exact Hla]|].
      right. exists f. split; [left; reflexivity|]. split.
      * split; [repeat constructor|]. exists f. split; [left; reflexivity|reflexivity].
      * split; [reflexivity|]. split; [reflexivity|]. unfold labels_at. cbn. rewrite Nat.eqb_refl. cbn. split; [reflexivity|discriminate].
    + rewrite Hp. fold (f_off g).
      assert (Hnel : nonempty (et_labels e) = true) by (destruct (et_labels e); [congruence|reflexivity]).
      destruct (f_off f <? f_off g) eqn:E1.
      * apply Nat.ltb_lt in E1. eexists; split; [reflexivity|]. split; [first [reflexivity | exact He]|]. split; [first [reflexivity | exact Hla]|].
        right. exists g. split; [apply in_or_app; auto|]. split.
        -- split; [apply Forall_app; split; [exact Hmax|repeat constructor; lia]|]. exists g. split; [apply in_or_app; auto|reflexivity].
        -- split; [exact Hp|]. split; [exact Hch|]. rewrite labels_at_snoc.
           rewrite (proj2 (Nat.eqb_neq _ _)) by lia. auto.
      * apply Nat.ltb_ge in E1. rewrite Hnel. cbn [negb orb].
        destruct (f_off g <? f_off f) eqn:E2.
        -- apply Nat.ltb_lt in E2. cbn [et_labels nonempty andb existsb et_pos et_char et_errs et_last app].
           eexists; split; [reflexivity|]. cbn [et_errs et_last et_pos et_char et_labels]. split; [first [reflexivity | exact He]|]. split; [first [reflexivity | exact Hla]|].
           right.
           exists f. split; [apply in_or_app; right; left; reflexivity|].
           assert (Hlt : Forall (fun h => f_off h < f_off f) cs) by (eapply Forall_impl; [|exact Hmax]; cbn; intros; lia).
           split.
           ++ split; [apply Forall_app; split; [eapply Forall_impl; [|exact Hmax]; cbn; intros; lia|repeat constructor]|].
              exists f. split; [apply in_or_app; right; left; reflexivity|reflexivity].
           ++ split; [reflexivity|]. split; [reflexivity|]. rewrite labels_at_snoc, Nat.eqb_refl, labels_at_beyond by exact Hlt.
              cbn. split; [reflexivity|discriminate].
        -- apply Nat.ltb_ge in E2. assert (Eq : f_off f = f_off g) by lia.
           destruct (Hcon f g) as [Hpp Hcc]; [apply in_or_app; right; left; reflexivity|apply in_or_app; left; apply Hsub; exact Hg|exact Eq|].
           rewrite Hnel, Hp, Hch, <- Hpp, <- Hcc, !Nat.eqb_refl. unfold beq at 1. rewrite Ascii.eqb_refl. cbn [andb negb].
           destruct (existsb (bytes_eqb (f_label f)) (et_labels e)) eqn:Ex.
           ++ eexists; split; [reflexivity|]. split; [first [reflexivity | exact He]|]. split; [first [reflexivity | exact Hla]|].
              right.
              exists g. split; [apply in_or_app; auto|]. split.
              ** split; [apply Forall_app; split; [exact Hmax|repeat constructor; lia]|]. exists g. split; [apply in_or_app; auto|reflexivity].
              ** split; [exact Hp|]. split; [exact Hch|]. rewrite labels_at_snoc, Eq, Nat.eqb_refl, <- Hlab, Ex. auto.
           ++ eexists; split; [reflexivity|]. cbn [et_errs et_last et_pos et_char et_labels]. split; [first [reflexivity | exact He]|]. split; [first [reflexivity | exact Hla]|].
              right.
              exists g. split; [apply in_or_app; auto|]. split.
              ** split; [apply Forall_app; split; [exact Hmax|repeat constructor; lia]|]. exists g. split; [apply in_or_app; auto|reflexivity].
              ** split; [exact Hpp|]. split; [exact Hcc|]. cbn [et_labels]. rewrite labels_at_snoc, Eq, Nat.eqb_refl, <- Hlab, Ex.
                 split; [reflexivity|]. destruct (et_labels e); discriminate.
  - rewrite app_nil_r.
    assert (Hskip : (f_off f <? offset (et_pos e)) || nonempty (et_errs e0) && (f_off f <=? et_last e0) = true).
    { unfold counts in Ec. apply andb_false_iff in Ec. destruct Ec as [Ec|Ec]; apply negb_false_iff in Ec.
      - apply orb_true_iff. left. apply Nat.ltb_lt in Ec. apply Nat.ltb_lt.
        destruct Ht as [(_ & _ & ->) | (g & Hg & _ & Hp & _)]; [exact Ec|]. rewrite Hp. fold (f_off g).
        unfold cs in Hg. apply filter_In in Hg. destruct Hg as [_ Hg]. unfold counts in Hg.
        apply andb_true_iff in Hg. destruct Hg as [Hg _]. apply negb_true_iff, Nat.ltb_ge in Hg. lia.
      - apply orb_true_iff. right. exact Ec. }
    rewrite Hskip. exists e. split; [reflexivity|]. split; [exact He|]. split; [exact Hla|exact Ht].
Qed.

Lemma consistent_prefix : forall fs gs, consistent (fs ++ gs) -> consistent fs.
Proof. intros fs gs H f g Hf Hg. apply H; apply in_or_app; auto. Qed.

Lemma note_all_tracked : forall fs e0, et_labels e0 = [] -> consistent fs ->
  exists e, note_all fs e0 = Some e /\ tracked e0 fs e.
Proof.
  intros fs e0 Hl. induction fs as [|f fs IH] using rev_ind; intros Hc.
  - exists e0. split; [reflexivity|]. unfold tracked, at_furthest. cbn. split; [reflexivity|]. split; [reflexivity|]. left. auto.
  - destruct (IH (consistent_prefix _ _ Hc)) as (e & E & Ht).
    unfold note_all. rewrite fold_left_app. cbn [fold_left]. fold (note_all fs e0). rewrite E.
    now apply note_tracked.
Qed.

(** ** Contexts *)

Lemma is_eolch_spec : forall c, is_eolch c = true <-> eol c.
Proof.
  intros c. unfold is_eolch, eol, beq, NL, CR. rewrite orb_true_iff, !Ascii.eqb_eq. reflexivity.
Qed.

Lemma is_eolch_not : forall c, is_eolch c = false <-> ~ eol c.
Proof. intros c. rewrite <- is_eolch_spec. destruct (is_eolch c); split; congruence. Qed.

Lemma lc_back_le : forall buf p, lc_back buf p <= p.
Proof.
  induction p as [|p IH]; [cbn; lia|]. cbn [lc_back]. destruct (nth_error buf (S p)) as [c|]; [|lia].
  destruct (is_eolch c || beq c ErrModel.NUL); lia.
Qed.

Lemma lc_back_here : forall buf p c, nth_error buf p = Some c -> ~ eol c -> c <> ErrModel.NUL -> lc_back buf p = p.
Proof.
  intros buf [|p] c H He Hn; [reflexivity|]. cbn [lc_back]. rewrite H.
  rewrite (proj2 (is_eolch_not c) He). unfold beq. rewrite (proj2 (Ascii.eqb_neq c ErrModel.NUL) Hn). reflexivity.
Qed.

(** at the head of the loop *)
Record lc_inv (buf : bytes) (maxl p st en n : nat) (fs fe : bool) : Prop := {
  li_le : st <= p <= en;
  li_len : en <= List.length buf;
  li_n : n = en - st;
  li_max : n < maxl;
  li_line : forall i c, st <= i < en -> nth_error buf i = Some c -> ~ eol c;
  li_fs : fs = true -> line_begin buf st;
  li_fe : fe = true -> line_finish buf en;
  li_bal1 : fs = false -> en - p <= p - st;
  li_bal2 : fe = false -> p - st <= en - p }.

(** when it is left *)
Record lc_out (buf : bytes) (maxl p st en n : nat) (fs fe : bool) : Prop := {
  lo_le : st <= p <= en;
  lo_len : en <= List.length buf;
  lo_n : n = en - st;
  lo_max : n <= maxl;
  lo_line : forall i c, st <= i < en -> nth_error buf i = Some c -> ~ eol c;
  lo_fs : fs = true -> line_begin buf st;
  lo_fe : fe = true -> line_finish buf en;
  lo_full : fs && fe = false -> n = maxl;
  lo_bal1 : fs = false -> en - p <= p - st;
  lo_bal2 : fe = false -> p - st <= S (en - p) }.

Lemma lc_loop_ok : forall k buf maxl p st en n fs fe,
  lc_inv buf maxl p st en n fs fe ->
  st + (List.length buf - en) + (if fs then 0 else 1) + (if fe then 0 else 1) < k ->
  exists st' en' n' fs' fe', lc_loop k buf maxl st en n fs fe = Some (st', en', n', fs', fe') /\
    lc_out buf maxl p st' en' n' fs' fe'.
Proof.
  induction k as [|k IH]; intros buf maxl p st en n fs fe I Hk; [lia|].
  cbn [lc_loop]. destruct (fs && fe) eqn:Eff.
  { exists st, en, n, fs, fe. split; [reflexivity|]. destruct I. constructor; auto; try lia; try congruence. }
  (* the right half *)
  assert (R : forall st n fs, st <= p <= en -> en <= List.length buf -> n = en - st -> n < maxl ->
     (forall i c, st <= i < en -> nth_error buf i = Some c -> ~ eol c) ->
     (fs = true -> line_begin buf st) -> (fe = true -> line_finish buf en) ->
     (fs = false -> (if fe then 0 else 1) + (en - p) <= p - st) ->
     (fe = false -> p - st <= S (en - p)) ->
     st + (List.length buf - en) + (if fs then 0 else 1) + (if fe then 0 else 1) <= k ->
     (fe = true -> st + (List.length buf - en) + (if fs then 0 else 1) + (if fe then 0 else 1) < k) ->
     exists st' en' n' fs' fe',
       (if fe then lc_loop k buf maxl st en n fs fe
        else match lc_right buf maxl en n with
             | inl (en', n') => Some (st, en', n', fs, fe)
             | inr (en', n', fe') => lc_loop k buf maxl st en' n' fs fe'
             end) = Some (st', en', n', fs', fe') /\ lc_out buf maxl p st' en' n' fs' fe').
  { clear I Hk Eff st n fs. intros st n fs F1 F2 F3 F4 F5 F6 F7 F8 F9 Hk Hk'. destruct fe.
    - apply IH; [|apply Hk'; reflexivity]. constructor; auto; try lia; try discriminate.
    - specialize (F9 eq_refl).
      unfold lc_right. destruct (nth_error buf en) as [c|] eqn:Ec.
      + assert (Hen : en < List.length buf) by (apply nth_error_Some; congruence).
        destruct (is_eolch c) eqn:Ee.
        * apply IH; [|lia]. constructor; auto; try lia; try discriminate.
          -- intros _. right. exists c. split; [exact Ec|]. now apply is_eolch_spec.
          -- intros E. specialize (F8 E). lia.
        * assert (Hl : forall i c, st <= i < S en -> nth_error buf i = Some c -> ~ eol c).
          { intros i d Hi Hd. destruct (Nat.eq_dec i en) as [->|Hne]; [|apply (F5 i); auto; lia].
            rewrite Ec in Hd. injection Hd as <-. now apply is_eolch_not. }
          destruct (Nat.eqb (S n) maxl) eqn:Em.
          -- apply Nat.eqb_eq in Em. exists st, (S en), (S n), fs, false. split; [reflexivity|].
             constructor; auto; try lia; try discriminate.
             intros E. specialize (F8 E). lia.
          -- apply Nat.eqb_neq in Em. apply IH; [|lia].
             constructor; auto; try lia; try discriminate.
             intros E. specialize (F8 E). lia.
      + apply nth_error_None in Ec. apply IH; [|lia]. constructor; auto; try lia; try discriminate.
        * intros _. left. lia.
        * intros E. specialize (F8 E). lia. }
  destruct I as [I1 I2 I3 I4 I5 I6 I7 I8 I9].
  assert (I9' : fe = false -> p - st <= S (en - p)) by (intros E; specialize (I9 E); lia).
  destruct fs.
  - apply R; auto; try discriminate; destruct fe; try discriminate; lia.
  - specialize (I8 eq_refl). unfold lc_left. destruct st as [|q].
    + apply R; auto; try discriminate; try (destruct fe; lia). intros _. now left.
    + destruct (nth_error buf q) as [c|] eqn:Ec; [|apply nth_error_None in Ec; lia].
      destruct (is_eolch c) eqn:Ee.
      * apply R; auto; try discriminate; try (destruct fe; lia).
        intros _. right. exists c. cbn [Nat.sub]. rewrite Nat.sub_0_r. split; [exact Ec|]. now apply is_eolch_spec.
      * assert (Hl : forall i c, q <= i < en -> nth_error buf i = Some c -> ~ eol c).
        { intros i d Hi Hd. destruct (Nat.eq_dec i q) as [->|Hne]; [|apply (I5 i); auto; lia].
          rewrite Ec in Hd. injection Hd as <-. now apply is_eolch_not. }
        destruct (Nat.eqb (S n) maxl) eqn:Em.
        -- apply Nat.eqb_eq in Em. exists q, en, (S n), false, fe. split; [reflexivity|].
           constructor; auto; try lia; try discriminate. intros E. specialize (I9 E). lia.
        -- apply Nat.eqb_neq in Em. apply R; auto; try discriminate; try (destruct fe; lia).
Qed.

Lemma set_dots_nth : forall l i j, i + 3 <= List.length l ->
  nth_error (set_dots l i) j = if (i <=? j) && (j <? i + 3) then Some "."%char else nth_error l j.
Proof.
  intros l i j H. unfold set_dots. destruct (i <=? j) eqn:E1; cbn [andb].
  - apply Nat.leb_le in E1. rewrite nth_error_app2; rewrite firstn_length, Nat.min_l by lia; [|lia].
    destruct (j <? i + 3) eqn:E2.
    + apply Nat.ltb_lt in E2. assert (D : j - i = 0 \/ j - i = 1 \/ j - i = 2) by lia.
      destruct D as [-> | [-> | ->]]; reflexivity.
    + apply Nat.ltb_ge in E2. rewrite nth_error_app2 by (cbn; lia). change (List.length (B "...")) with 3.
      rewrite <- (firstn_skipn (i + 3) l) at 2. rewrite nth_error_app2; rewrite firstn_length, Nat.min_l by lia; [|lia].
      f_equal. lia.
  - apply Nat.leb_gt in E1. rewrite nth_error_app1 by (rewrite firstn_length; lia).
    rewrite <- (firstn_skipn i l) at 2. symmetry. apply nth_error_app1. rewrite firstn_length. lia.
Qed.

Lemma set_dots_length : forall l i, i + 3 <= List.length l -> List.length (set_dots l i) = List.length l.
Proof.
  intros l i H. unfold set_dots. rewrite !app_length, firstn_length, skipn_length. change (List.length (B "...")) with 3. lia.
Qed.

Lemma skipn_nth : forall (X : Type) a (l : list X) i, nth_error (skipn a l) i = nth_error l (a + i).
Proof.
  induction a as [|a IH]; intros l i; [reflexivity|]. destruct l as [|x l]; [destruct i; reflexivity|]. apply IH.
Qed.

Lemma firstn_nth : forall (X : Type) a (l : list X) i, i < a -> nth_error (firstn a l) i = nth_error l i.
Proof.
  induction a as [|a IH]; intros l i H; [lia|]. destruct l as [|x l]; [reflexivity|].
  destruct i as [|i]; [reflexivity|]. cbn. apply IH. lia.
Qed.

Lemma slice_nth : forall buf st en i, i < en - st -> nth_error (slice buf st en) i = nth_error buf (st + i).
Proof. intros buf st en i H. unfold slice. rewrite firstn_nth by exact H. apply skipn_nth. Qed.

Lemma slice_len : forall buf st en, en <= List.length buf -> List.length (slice buf st en) = en - st.
Proof. intros. unfold slice. rewrite firstn_length, skipn_length. lia. Qed.

Lemma line_context_ok : forall buf off maxl, 7 <= maxl -> buf <> [] -> off <= List.length buf ->
  exists ctx st en l r,
    line_context buf off maxl = Some (ctx, off - st) /\ one_line buf st en /\ en - st <= maxl /\ window buf st en l r ctx /\
    (l = false -> line_begin buf st) /\ (r = false -> line_finish buf en) /\
    (l = true \/ r = true -> en - st = maxl) /\ st <= off /\
    (forall c, nth_error buf off = Some c -> ~ eol c -> c <> "000"%char ->
       off < en /\ (8 <= maxl -> nth_error ctx (off - st) = Some c)).
Proof.
  intros buf off maxl Hm Hb Ho. unfold line_context.
  destruct buf as [|b0 b1] eqn:Eb; [congruence|]. rewrite <- Eb in *. assert (Hlen : 0 < List.length buf) by (subst; cbn; lia).
  clear b0 b1 Eb Hb. rewrite (proj2 (Nat.ltb_ge maxl 7)) by lia. rewrite (proj2 (Nat.eqb_neq (List.length buf) 0)) by lia.
  rewrite (proj2 (Nat.ltb_ge (List.length buf) off)) by lia. cbn [orb].
  set (o := if List.length buf <=? off then List.length buf - 1 else off).
  assert (Hoo : o <= off /\ o < List.length buf).
  { subst o. destruct (List.length buf <=? off) eqn:E; [apply Nat.leb_le in E; lia|apply Nat.leb_gt in E; lia]. }
  set (p := lc_back buf o). assert (Hp : p <= o) by apply lc_back_le.
  destruct (lc_loop_ok (S (S (S (S (List.length buf + List.length buf))))) buf maxl p p p 0 false false)
    as (st & en & n & fs & fe & -> & O).
  { constructor; try lia; try discriminate. }
  { lia. }
  destruct O as [O1 O2 O3 O4 O5 O6 O7 O8 O9 O10].
  rewrite <- O3, Nat.eqb_refl, (proj2 (Nat.ltb_ge maxl n) O4). cbn [negb orb].
  assert (Hdot : negb fs || negb fe = true -> 7 <= n).
  { intros E. rewrite O8; [lia|]. destruct fs, fe; cbn in *; congruence. }
  assert (Hg : (negb fs || negb fe) && negb (3 <? n) = false).
  { destruct (negb fs || negb fe) eqn:E; [|reflexivity]. specialize (Hdot eq_refl).
    rewrite (proj2 (Nat.ltb_lt 3 n)) by lia. reflexivity. }
  rewrite Hg.
  set (t := slice buf st en). assert (Ht : List.length t = n) by (subst t; rewrite slice_len; lia).
  set (t1 := if fs then t else set_dots t 0).
  assert (Ht1 : List.length t1 = n /\ forall i, nth_error t1 i = if negb fs && (i <? 3) then Some "."%char else nth_error t i).
  { subst t1. destruct fs; [auto|]. cbn [negb andb orb] in *. specialize (Hdot eq_refl). split.
    - rewrite set_dots_length; lia.
    - intros i. rewrite set_dots_nth by lia. reflexivity. }
  destruct Ht1 as [Ht1 Hn1]. clearbody t1.
  set (t2 := if fe then t1 else set_dots t1 (n - 3)).
  assert (Ht2 : List.length t2 = n /\ forall i, i < n -> nth_error t2 i =
     if negb fs && (i <? 3) || negb fe && (n <=? i + 3) then Some "."%char else nth_error t i).
  { subst t2. destruct fe.
    - split; [exact Ht1|]. intros i Hi. rewrite Hn1. cbn [negb andb]. now rewrite orb_false_r.
    - assert (7 <= n) by (apply Hdot; now rewrite orb_true_r). split.
      + rewrite set_dots_length; lia.
      + intros i Hi. rewrite set_dots_nth by lia. rewrite Hn1. replace (n - 3 + 3) with n by lia.
        rewrite (proj2 (Nat.ltb_lt i n)) by lia. rewrite andb_true_r. cbn [negb andb].
        assert (E : (n - 3 <=? i) = (n <=? i + 3)).
        { destruct (n <=? i + 3) eqn:E; [apply Nat.leb_le in E; apply Nat.leb_le; lia|apply Nat.leb_gt in E; apply Nat.leb_gt; lia]. }
        rewrite E. destruct (n <=? i + 3); [now rewrite orb_true_r|]. now rewrite orb_false_r. }
  destruct Ht2 as [Ht2 Hn2]. clearbody t2.
  exists t2, st, en, (negb fs), (negb fe). split; [reflexivity|]. split; [split; [lia|exact O5]|].
  split; [lia|]. split.
  { split; [lia|]. intros i Hi. rewrite Hn2 by lia. rewrite <- O3.
    destruct (negb fs && (i <? 3) || negb fe && (n <=? i + 3)); [reflexivity|]. apply slice_nth. lia. }
  split; [intros E; apply O6; destruct fs; [reflexivity|discriminate]|].
  split; [intros E; apply O7; destruct fe; [reflexivity|discriminate]|].
  split; [intros E; rewrite <- O3; apply O8; destruct fs, fe, E; cbn in *; congruence|].
  split; [lia|]. intros c Hc He Hn.
  assert (Hoff : off < List.length buf) by (apply nth_error_Some; congruence).
  assert (Ep : p = off).
  { subst p o. rewrite (proj2 (Nat.leb_gt (List.length buf) off)) by lia. eapply lc_back_here; eauto. }
  assert (Hen : off < en).
  { destruct fe eqn:Efe.
    - destruct (O7 eq_refl) as [El|(d & Hd & Hde)]; [lia|]. destruct (Nat.eq_dec en off) as [->|]; [|lia].
      exfalso. rewrite Hc in Hd. injection Hd as <-. contradiction.
    - rewrite orb_true_r in Hdot. specialize (Hdot eq_refl). specialize (O10 eq_refl). lia. }
  split; [exact Hen|]. intros H8. rewrite Hn2 by lia.
  assert (E1 : negb fs && (off - st <? 3) = false).
  { destruct fs; [reflexivity|]. cbn [negb andb orb] in *. specialize (O9 eq_refl). rewrite (O8 eq_refl) in O3. apply Nat.ltb_ge. lia. }
  assert (E2 : negb fe && (n <=? off - st + 3) = false).
  { destruct fe; [reflexivity|]. cbn [negb andb] in *. specialize (O10 eq_refl). rewrite andb_false_r in O8. specialize (O8 eq_refl).
    apply Nat.leb_gt. lia. }
  rewrite E1, E2. cbn [orb]. subst t. rewrite slice_nth by lia. replace (st + (off - st)) with off by lia. exact Hc.
Qed.

Lemma line_context_of : forall buf off maxl, 7 <= maxl -> buf <> [] -> off <= List.length buf ->
  exists ctx off', line_context buf off maxl = Some (ctx, off') /\ context_of buf off maxl ctx off'.
Proof.
  intros buf off maxl H1 H2 H3.
  destruct (line_context_ok buf off maxl H1 H2 H3) as (ctx & st & en & l & r & E & A1 & A2 & A3 & A4 & A5 & A6 & A7 & A8).
  exists ctx, (off - st). split; [exact E|]. exists st, en, l, r. auto 10.
Qed.

Lemma line_context_some : forall buf off maxl ctx off', line_context buf off maxl = Some (ctx, off') ->
  context_of buf off maxl ctx off'.
Proof.
  intros buf off maxl ctx off' H.
  assert (P : 7 <= maxl /\ buf <> [] /\ off <= List.length buf).
  { unfold line_context in H. destruct (maxl <? 7) eqn:E1; [discriminate|]. apply Nat.ltb_ge in E1.
    destruct (Nat.eqb (List.length buf) 0) eqn:E2; [discriminate|]. apply Nat.eqb_neq in E2.
    destruct (List.length buf <? off) eqn:E3; [discriminate|]. apply Nat.ltb_ge in E3.
    split; [exact E1|]. split; [|exact E3]. intros ->. now apply E2. }
  destruct P as (P1 & P2 & P3). destruct (line_context_of buf off maxl P1 P2 P3) as (c & o & E & C).
  rewrite H in E. injection E as -> ->. exact C.
Qed.

(** ** Histories *)

Lemma et_run_app : forall col h1 h2 e, et_run col (h1 ++ h2) e =
  match et_run col h1 e with Some e => et_run col h2 e | None => None end.
Proof.
  induction h1 as [|o h1 IH]; intros h2 e; [reflexivity|]. cbn [app et_run].
  destruct (et_step col e o); [apply IH|reflexivity].
Qed.

Record increasing (e : etrack) : Prop := {
  in_sorted : StronglySorted lt (map e_offset (et_errs e));
  in_last : Forall (fun x => e_offset x <= et_last e) (et_errs e);
  in_next : et_labels e <> [] -> et_errs e <> [] -> et_last e < offset (et_pos e) }.

Lemma ssorted_app1 : forall l x, StronglySorted lt l -> Forall (fun y => y < x) l -> StronglySorted lt (l ++ [x]).
Proof.
  induction l as [|a l IH]; intros x H1 H2; cbn; [repeat constructor|].
  inversion H1; subst. inversion H2; subst. constructor; [auto|].
  apply Forall_app. split; [auto|]. repeat constructor. auto.
Qed.

Lemma note_shape : forall e p c l e', et_note e p c l = Some e' ->
  et_errs e' = et_errs e /\ et_last e' = et_last e /\
  (e' = e \/ (et_pos e' = p /\ (et_errs e <> [] -> et_last e < offset p)) \/
   (et_labels e <> [] /\ et_pos e' = et_pos e)).
Proof.
  intros e p c l e' H. unfold et_note in H.
  destruct (Nat.ltb (offset p) (offset (et_pos e)) || nonempty (et_errs e) && Nat.leb (offset p) (et_last e)) eqn:E0.
  { injection H as <-. auto. }
  apply orb_false_iff in E0. destruct E0 as [_ E0].
  assert (Hb : et_errs e <> [] -> et_last e < offset p).
  { intros Hn. destruct (et_errs e); [congruence|]. cbn in E0. apply Nat.leb_gt in E0. exact E0. }
  destruct (negb (nonempty (et_labels e)) || Nat.ltb (offset (et_pos e)) (offset p)) eqn:E1.
  - cbn [et_labels nonempty andb existsb et_pos et_char et_errs et_last app] in H. injection H as <-.
    cbn. split; [reflexivity|]. split; [reflexivity|]. right. left. auto.
  - apply orb_false_iff in E1. destruct E1 as [E1 _]. apply negb_false_iff in E1.
    assert (et_labels e <> []) by (destruct (et_labels e); discriminate || (cbn in E1; congruence)).
    match type of H with (if ?b then None else _) = _ => destruct b; [discriminate|] end.
    match type of H with (if ?b then _ else _) = _ => destruct b; injection H as <-; cbn; auto 6 end.
Qed.

Lemma step_increasing : forall col e o e', increasing e -> et_step col e o = Some e' -> increasing e'.
Proof.
  intros col e o e' [I1 I2 I3] H. destruct o as [f| | |]; cbn [et_step] in H.
  - destruct (note_shape _ _ _ _ _ H) as (A & B & C). constructor; rewrite ?A, ?B; auto.
    intros L Hn. destruct C as [-> | [(-> & C) | (C & ->)]]; auto.
  - injection H as <-. constructor; cbn; auto; congruence.
  - injection H as <-. constructor; cbn; auto; try constructor; congruence.
  - injection H as <-. unfold et_reify. destruct (et_labels e) as [|l ls] eqn:El; [constructor; auto; rewrite ?El; auto|].
    assert (Hlt : Forall (fun x => e_offset x < offset (et_pos e)) (et_errs e)).
    { destruct (et_errs e) as [|x xs] eqn:Ee; [constructor|].
      assert (et_last e < offset (et_pos e)) by (apply I3; discriminate).
      eapply Forall_impl; [|exact I2]. cbn. intros; lia. }
    constructor; cbn [et_errs et_labels et_last et_pos].
    + rewrite map_app. cbn [map]. apply ssorted_app1; [exact I1|].
      rewrite Forall_map. exact Hlt.
    + apply Forall_app. split; [eapply Forall_impl; [|exact Hlt]; cbn; intros; lia|]. repeat constructor.
    + congruence.
Qed.

Lemma run_increasing : forall col h e e', increasing e -> et_run col h e = Some e' -> increasing e'.
Proof.
  induction h as [|o h IH]; intros e e' I H; cbn [et_run] in H; [congruence|].
  destruct (et_step col e o) eqn:E; [|discriminate]. eapply IH; [|exact H]. eapply step_increasing; eauto.
Qed.

(** the state since the last report, or since the start *)
Lemma consistent_app_l : forall fs gs, consistent (fs ++ gs) -> consistent fs.
Proof. intros fs gs H f g Hf Hg. apply H; apply in_or_app; auto. Qed.
Lemma consistent_app_r : forall fs gs, consistent (fs ++ gs) -> consistent gs.
Proof. intros fs gs H f g Hf Hg. apply H; apply in_or_app; auto. Qed.

Lemma notes_app : forall a b, notes (a ++ b) = notes a ++ notes b.
Proof. intros. unfold notes. apply flat_map_app. Qed.

(** all pending failures [ns] came after the state [e0] *)
Definition since (col : coloring) (h : list etop) (e : etrack) : Prop :=
  exists e0 ns pre, et_labels e0 = [] /\ et_pos e0 = mkpos 0 0 0 /\ increasing e0 /\
    (et_errs e0 <> [] -> exists x, In x (et_errs e0) /\ e_offset x = et_last e0) /\
    notes h = pre ++ ns /\ note_all ns e0 = Some e /\
    history col h (filter (counts e0) ns) (et_errs e0).

Lemma counts_beyond : forall e0 f, et_pos e0 = mkpos 0 0 0 -> increasing e0 ->
  (et_errs e0 <> [] -> exists x, In x (et_errs e0) /\ e_offset x = et_last e0) ->
  counts e0 f = true <-> beyond (et_errs e0) f.
Proof.
  intros e0 f Hp [_ Hl _] Hx. unfold counts, beyond. rewrite Hp. cbn [offset Nat.ltb Nat.leb negb andb].
  destruct (et_errs e0) as [|x xs] eqn:Ee; cbn [nonempty andb negb].
  - split; auto.
  - rewrite negb_true_iff, Nat.leb_gt. split; intros H.
    + eapply Forall_impl; [|exact Hl]. cbn. intros; lia.
    + destruct Hx as (y & Hy & Ey); [discriminate|]. rewrite Forall_forall in H. specialize (H y Hy). lia.
Qed.

Lemma since_run : forall col h, forallb (fun o => negb (is_clear o)) h = true -> consistent (notes h) ->
  exists e, et_run col h et_init = Some e /\ since col h e.
Proof.
  intros col h. induction h as [|o h IH] using rev_ind; intros Hcl Hcon.
  - exists et_init. split; [reflexivity|]. exists et_init, [], []. cbn. split; [reflexivity|]. split; [reflexivity|].
    split; [constructor; cbn; try constructor; congruence|]. split; [congruence|]. split; [reflexivity|]. split; [reflexivity|constructor].
  - rewrite forallb_app in Hcl. apply andb_true_iff in Hcl. destruct Hcl as [Hcl Ho]. cbn in Ho. rewrite andb_true_r in Ho.
    rewrite notes_app in Hcon. destruct (IH Hcl (consistent_app_l _ _ Hcon)) as (e & He & Hs). clear IH.
    rewrite et_run_app, He. cbn [et_run].
    destruct Hs as (e0 & ns & pre & L0 & P0 & I0 & X0 & Hn & Hall & Hh).
    destruct o as [f| | |]; try discriminate; cbn [et_step].
    + assert (Hcon2 : consistent (ns ++ [f])).
      { apply (consistent_app_r pre). rewrite app_assoc, <- Hn. exact Hcon. }
      destruct (note_all_tracked (ns ++ [f]) e0 L0 Hcon2) as (e' & He' & _).
      assert (He2 : et_note e (f_pos f) (f_char f) (f_label f) = Some e').
      { unfold note_all in He'. rewrite fold_left_app in He'. cbn [fold_left] in He'. fold (note_all ns e0) in He'.
        rewrite Hall in He'. exact He'. }
      rewrite He2. exists e'. split; [reflexivity|]. exists e0, (ns ++ [f]), pre.
      repeat (split; [assumption|]). split; [rewrite notes_app, Hn, <- app_assoc; reflexivity|].
      split; [exact He'|]. rewrite filter_app. cbn [filter].
      pose proof (counts_beyond e0 f P0 I0 X0) as Hcb. destruct (counts e0 f).
      * apply h_note; [exact Hh|]. apply Hcb. reflexivity.
      * rewrite app_nil_r. apply h_known; [exact Hh|]. intros Hb. apply Hcb in Hb. discriminate.
    + assert (Hcon2 : consistent ns).
      { apply (consistent_app_r pre). rewrite <- Hn. exact (consistent_app_l _ _ Hcon). }
      destruct (note_all_tracked ns e0 L0 Hcon2) as (e' & He' & Ht). rewrite Hall in He'. injection He' as <-.
      destruct Ht as (T1 & T2 & T3).
      eexists. split; [reflexivity|].
      destruct T3 as [(Ecs & Hlab & Hpos) | (f & Hf & Hfur & Hp & Hch & Hlab & Hne)].
      * unfold et_reify. rewrite Hlab. exists e, [], (notes (h ++ [EReify])). split; [exact Hlab|]. split; [congruence|].
        split; [destruct I0 as [J1 J2 J3]; constructor; rewrite ?T1, ?T2; auto; rewrite Hlab; congruence|].
        split; [rewrite T1, T2; exact X0|]. split; [now rewrite app_nil_r|]. split; [reflexivity|].
        cbn [filter]. rewrite T1. rewrite Ecs in Hh. apply h_nothing. exact Hh.
      * exists (et_reify col e), [], (notes (h ++ [EReify])).
        assert (Il : increasing e) by (eapply run_increasing; [|exact He]; constructor; cbn; try constructor; congruence).
        assert (Ir : increasing (et_reify col e)) by (eapply (step_increasing col e EReify); [exact Il|reflexivity]).
        unfold et_reify in *. destruct (et_labels e) as [|l ls] eqn:El; [congruence|].
        split; [reflexivity|]. split; [reflexivity|]. split; [exact Ir|]. cbn [et_errs et_last].
        split; [intros _; eexists; split; [apply in_or_app; right; left; reflexivity|reflexivity]|].
        split; [now rewrite app_nil_r|]. split; [reflexivity|]. cbn [filter]. rewrite T1.
        eapply h_report; [exact Hh| |].
        -- intros E. rewrite E in Hf. destruct Hf.
        -- exists f. split; [exact Hf|]. split; [exact Hfur|]. cbn [pe_pos pe_msg pe_ctx]. split; [exact Hp|].
           split; [|reflexivity]. rewrite Hch, Hlab. apply report_message. rewrite <- Hlab. discriminate.
Qed.

Lemma history_run : forall col h, forallb (fun o => negb (is_clear o)) h = true -> consistent (notes h) ->
  exists e fs, et_run col h et_init = Some e /\ history col h fs (et_errs e).
Proof.
  intros col h Hcl Hcon. destruct (since_run col h Hcl Hcon) as (e & He & e0 & ns & pre & L0 & P0 & I0 & X0 & Hn & Hall & Hh).
  exists e, (filter (counts e0) ns). split; [exact He|].
  assert (Hcon2 : consistent ns) by (apply (consistent_app_r pre); rewrite <- Hn; exact Hcon).
  destruct (note_all_tracked ns e0 L0 Hcon2) as (e' & He' & (T1 & _)). rewrite Hall in He'. injection He' as <-.
  rewrite T1. exact Hh.
Qed.
