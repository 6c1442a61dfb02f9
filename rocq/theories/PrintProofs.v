(** * Facts about printing *)
From Coq Require Import List Bool Arith Ascii String Lia.
From Verif Require Import Peg QuickModel AstTypes AstModel DetailModel DetailProofs PrintModel
  CypherSpec PrintSpec.
Import ListNotations.

Local Opaque dec.

(** ** Decimal numbers *)

Lemma digits_more : forall n f g, n < f -> n < g -> digits f n = digits g n.
Proof.
  induction n as [n IH] using lt_wf_ind. intros [|f] [|g] Hf Hg; try lia. cbn [digits].
  destruct (n <? 10) eqn:E; [reflexivity|]. apply Nat.ltb_ge in E. f_equal.
  assert (n / 10 < n) by (apply Nat.div_lt; lia). apply IH; lia.
Qed.

Local Transparent dec.
Lemma dec_eq : forall n, dec n = (if n <? 10 then [] else dec (n / 10)) ++ [digit (n mod 10)].
Proof.
  intros n. unfold dec at 1. cbn [digits]. destruct (n <? 10) eqn:E; [reflexivity|].
  apply Nat.ltb_ge in E. f_equal. unfold dec. assert (n / 10 < n) by (apply Nat.div_lt; lia).
  apply digits_more; lia.
Qed.
Local Opaque dec.

Definition undigit (c : ascii) : nat := nat_of_ascii c - 48.
Definition value (s : bytes) : nat := fold_left (fun a c => 10 * a + undigit c) s 0.

Lemma digit_undigit : forall d, d < 10 -> undigit (digit d) = d.
Proof.
  intros d H. do 10 (destruct d as [|d]; [vm_compute; reflexivity|]). lia.
Qed.

Lemma dec_value : forall n, value (dec n) = n.
Proof.
  induction n as [n IH] using lt_wf_ind. rewrite dec_eq. unfold value. rewrite fold_left_app. cbn [fold_left].
  rewrite digit_undigit by (apply Nat.mod_upper_bound; lia).
  destruct (n <? 10) eqn:E.
  - apply Nat.ltb_lt in E. cbn [fold_left]. rewrite Nat.mod_small by lia. lia.
  - apply Nat.ltb_ge in E. fold (value (dec (n / 10))). rewrite IH by (apply Nat.div_lt; lia).
    symmetry. rewrite (Nat.div_mod n 10) at 1 by lia. lia.
Qed.

(** no leading zero, digits only *)
Lemma dec_shape : forall n, exists c s, dec n = c :: s /\ (0 < n -> c <> "0"%char) /\
  Forall (fun c => exists d, d < 10 /\ c = digit d) (dec n).
Proof.
  induction n as [n IH] using lt_wf_ind. rewrite dec_eq. destruct (n <? 10) eqn:E.
  - apply Nat.ltb_lt in E. rewrite Nat.mod_small by lia. simpl. exists (digit n), []. split; [reflexivity|]. split.
    + intros Hn He. assert (Hu : undigit (digit n) = undigit "0"%char) by congruence.
      rewrite digit_undigit in Hu by lia. vm_compute in Hu. lia.
    + constructor; [|constructor]. exists n; auto.
  - apply Nat.ltb_ge in E. assert (Hlt : n / 10 < n) by (apply Nat.div_lt; lia).
    destruct (IH _ Hlt) as (c & s & Hd & Hz & Hf). rewrite Hd. exists c, (s ++ [digit (n mod 10)]).
    split; [reflexivity|]. split.
    + intros _. apply Hz. apply Nat.div_str_pos. lia.
    + rewrite Hd in Hf. apply Forall_app. split; [exact Hf|]. constructor; [|constructor].
      exists (n mod 10). split; [apply Nat.mod_upper_bound; lia|reflexivity].
Qed.

Lemma dec_length_eq : forall n, List.length (dec n) = if n <? 10 then 1 else S (List.length (dec (n / 10))).
Proof.
  intros n. rewrite dec_eq. rewrite app_length. cbn [List.length]. destruct (n <? 10); simpl; lia.
Qed.

Lemma dec_length_mono : forall m n, n <= m -> List.length (dec n) <= List.length (dec m).
Proof.
  induction m as [m IH] using lt_wf_ind. intros n H. rewrite (dec_length_eq n), (dec_length_eq m).
  destruct (n <? 10) eqn:En, (m <? 10) eqn:Em; try lia.
  - apply Nat.ltb_lt in Em. apply Nat.ltb_ge in En. lia.
  - apply Nat.ltb_ge in Em. apply le_n_S. apply IH; [apply Nat.div_lt; lia|]. apply Nat.div_le_mono; lia.
Qed.

Lemma flog10_length : forall n g, n <= g -> S (flog10 g n) = List.length (dec n).
Proof.
  induction n as [n IH] using lt_wf_ind. intros g Hg. rewrite dec_length_eq.
  destruct g as [|g]; cbn [flog10].
  - assert (n = 0) by lia. subst. reflexivity.
  - destruct (n <? 10) eqn:E; [reflexivity|]. apply Nat.ltb_ge in E. f_equal.
    assert (n / 10 < n) by (apply Nat.div_lt; lia). apply IH; lia.
Qed.

Lemma ulog10_wide : forall lz m n, n <= m -> List.length (dec n) <= ulog10 lz m + 1.
Proof.
  intros lz m n H. unfold ulog10. destruct (Nat.eqb m 0) eqn:E.
  - apply Nat.eqb_eq in E. assert (n = 0) by lia. subst. change (List.length (dec 0)) with 1. lia.
  - pose proof (flog10_length m m ltac:(lia)). pose proof (dec_length_mono m n H). lia.
Qed.

Lemma digit_not_nul : forall d, d < 10 -> digit d <> NUL.
Proof. intros d H. do 10 (destruct d as [|d]; [vm_compute; discriminate|]). lia. Qed.

Lemma dec_no_nul : forall n, ~ In NUL (dec n).
Proof.
  intros n H. destruct (dec_shape n) as (c & s & _ & _ & Hf). rewrite Forall_forall in Hf.
  destruct (Hf _ H) as (d & Hd & He). symmetry in He. now apply (digit_not_nul d Hd) in He.
Qed.

(** ** Reallocating printers *)

Definition honest (p : printer) (text : bytes) : Prop :=
  forall buf, exists b, p buf (List.length buf) = Some (b, List.length text) /\
                        agrees (List.length buf) b text.

Lemma firstn_agrees : forall size b text, agrees size b text -> List.length text < size ->
  firstn (List.length text) b = text.
Proof.
  intros size b text [Hl Ha] Hlt.
  apply (nth_ext _ _ "000"%char "000"%char); [rewrite firstn_length; lia|].
  intros i Hi. rewrite firstn_length in Hi.
  assert (He : nth_error (firstn (List.length text) b) i = nth_error text i).
  { rewrite nth_firstn_lt by lia. apply Ha. lia. }
  destruct (nth_error text i) as [c|] eqn:E.
  - rewrite (nth_error_nth _ _ _ E). now apply nth_error_nth.
  - apply nth_error_None in E. lia.
Qed.

Lemma regrow_length : forall j buf cap, List.length (regrow j buf cap) = cap.
Proof. intros. unfold regrow. rewrite firstn_length, app_length, repeat_length. lia. Qed.

Lemma print_realloc_ok : forall junk p text buf, honest p text -> List.length text <> List.length buf ->
  exists b, print_realloc junk p buf = Some (b, List.length text) /\
    List.length b = (if List.length buf <? List.length text then S (List.length text) else List.length buf) /\
    agrees (List.length b) b text.
Proof.
  intros junk p text buf Hp Hne. unfold print_realloc.
  destruct (Hp buf) as (b & -> & Ha). destruct (List.length buf <? List.length text) eqn:E.
  - destruct (Hp (regrow junk b (S (List.length text)))) as (b2 & H2 & Ha2).
    rewrite regrow_length in H2, Ha2. rewrite regrow_length. rewrite H2.
    exists b2. destruct Ha2 as [Hl2 Ha2]. split; [reflexivity|]. split; [exact Hl2|].
    split; [reflexivity|]. rewrite Hl2. exact Ha2.
  - exists b. destruct Ha as [Hl Ha]. split; [reflexivity|]. split; [exact Hl|].
    split; [reflexivity|]. rewrite Hl. exact Ha.
Qed.

Lemma vsnprintf_honest : forall s, honest (vsnprintf s) s.
Proof.
  intros s buf. unfold vsnprintf.
  destruct (wexec_ok (List.length buf) (WPrintf s) buf [] eq_refl) as (b & Hb & Ha).
  - split; [reflexivity|]. simpl; intros; lia.
  - exists b. split; assumption.
Qed.

(** snprintf also terminates the text when there is room *)
Lemma vsnprintf_nul : forall s buf b w, vsnprintf s buf (List.length buf) = Some (b, w) ->
  List.length s < List.length buf -> nth_error b (List.length s) = Some NUL.
Proof.
  intros s buf b w H Hlt. unfold vsnprintf, wexec in H.
  destruct (0 <? List.length buf) eqn:E; [|apply Nat.ltb_ge in E; lia].
  rewrite Nat.sub_0_r in H. destruct (List.length buf) as [|m] eqn:El; [lia|].
  rewrite firstn_all2 in H by lia.
  destruct (put_all_some (s ++ [NUL]) buf 0) as (b2 & H2 & Hl & Hlo & Hhi).
  { rewrite app_length; simpl; lia. }
  rewrite H2 in H. simpl in H. inversion H; subst b2. rewrite Hhi by (rewrite app_length; simpl; lia).
  rewrite Nat.sub_0_r, nth_error_app2, Nat.sub_diag by lia. reflexivity.
Qed.

Lemma snprintf_realloc_complete : forall junk s buf, List.length s <> List.length buf ->
  exists b, snprintf_realloc junk s buf = Some (b, List.length s) /\
    List.length b = (if List.length buf <? List.length s then S (List.length s) else List.length buf) /\
    firstn (List.length s) b = s /\ nth_error b (List.length s) = Some NUL.
Proof.
  intros junk s buf Hne. unfold snprintf_realloc.
  destruct (print_realloc_ok junk (vsnprintf s) s buf (vsnprintf_honest s) Hne) as (b & Hb & Hl & Ha).
  exists b. split; [exact Hb|]. split; [exact Hl|].
  assert (Hlt : List.length s < List.length b).
  { rewrite Hl. destruct (List.length buf <? List.length s) eqn:E; [lia|]. apply Nat.ltb_ge in E. lia. }
  split; [eapply firstn_agrees; eauto|].
  unfold print_realloc in Hb. destruct (vsnprintf_honest s buf) as (b1 & H1 & Ha1). rewrite H1 in Hb.
  destruct (List.length buf <? List.length s) eqn:E.
  - rewrite regrow_length in Hb.
    apply (vsnprintf_nul s (regrow junk b1 (S (List.length s))) b (List.length s)); rewrite regrow_length; [exact Hb|lia].
  - inversion Hb; subst. eapply vsnprintf_nul; eauto. congruence.
Qed.

Lemma cstr_prefix : forall s b, ~ In NUL s -> nth_error b (List.length s) = Some NUL ->
  firstn (List.length s) b = s -> cstr b = s.
Proof.
  induction s as [|c s IH]; intros b Hn Hz Hf.
  - destruct b as [|x b]; [discriminate|]. cbn in Hz. inversion Hz; subst. reflexivity.
  - destruct b as [|x b]; [discriminate|]. cbn in Hf. inversion Hf; subst. cbn.
    destruct (beq c "000"%char) eqn:E.
    + apply Ascii.eqb_eq in E. subst. exfalso. apply Hn. left; reflexivity.
    + rewrite H1. f_equal. apply IH; auto. intros Hi; apply Hn; right; exact Hi.
Qed.

(** ** The detail of a line *)

Lemma escape_visible : forall c, escape c = visible c.
Proof. intros [[] [] [] [] [] [] [] []]; vm_compute; reflexivity. Qed.

Lemma emit_plain : forall offs cs more w, fst (emit 0 offs cs more w) = cs.
Proof.
  induction cs as [|c cs IH]; intros more w; [reflexivity|]. cbn.
  destruct (emit 0 offs cs more _) as [o w2] eqn:E. specialize (IH more (match w with Some (S w0) => Some w0 | _ => None end)).
  rewrite E in IH. cbn in *. now f_equal.
Qed.

Lemma emit_detail_plain : forall offs d w, emit_detail 0 offs d w = visible_text d.
Proof.
  intros offs. induction d as [|c d IH]; intros w; [reflexivity|]. cbn [emit_detail].
  destruct (emit 0 offs (escape c) _ w) as [o w'] eqn:E.
  pose proof (emit_plain offs (escape c) (match d with [] => false | _ => true end) w) as Hp.
  rewrite E in Hp. cbn in Hp. subst o. rewrite IH. cbn. now rewrite escape_visible.
Qed.

Section Wrap.
Variables (width offs : nat).
Let sep := "010"%char :: blanks offs.

Lemma broken_cons : forall k c s o, broken sep width k s o -> broken sep width (S k) (c :: s) (c :: o).
Proof.
  intros k c s o H. inversion H; subst.
  - apply br_last. simpl. lia.
  - change (c :: a ++ s0) with ((c :: a) ++ s0).
    change (c :: a ++ sep ++ o0) with ((c :: a) ++ sep ++ o0). apply br_line; auto.
Qed.

(** the last byte: no line break at all *)
Lemma emit_last : forall cs w, fst (emit width offs cs false w) = cs.
Proof.
  induction cs as [|c cs IH]; intros w; [reflexivity|]. cbn [emit].
  replace (match width, match w with Some (S w0) => Some w0 | _ => None end with S _, Some 0 => false | _, _ => false end)
    with false by (destruct width, w as [[|[|]]|]; reflexivity).
  destruct (emit width offs cs false _) as [o w2] eqn:E.
  specialize (IH (match w with Some (S w0) => Some w0 | _ => None end)). rewrite E in IH. cbn in *. now f_equal.
Qed.

(** other bytes: the room stays positive *)
Lemma emit_more : forall cs k, 0 < width -> 0 < k -> exists k', 0 < k' /\
  snd (emit width offs cs true (Some k)) = Some k' /\
  forall s o, broken sep width k' s o ->
    broken sep width k (cs ++ s) (fst (emit width offs cs true (Some k)) ++ o).
Proof.
  induction cs as [|c cs IH]; intros k Hw Hk.
  - exists k. cbn. auto.
  - destruct k as [|k]; [lia|]. cbn [emit].
    assert (Et : match width with 0 => false | S _ => true end = true).
    { clear -Hw. destruct width; [lia|reflexivity]. }
    assert (Ef : match width with 0 => false | S _ => false end = false).
    { destruct width; reflexivity. }
    destruct k as [|k]; [rewrite Et|rewrite Ef].
    + destruct (IH width Hw Hw) as (k' & Hk' & Hs & Hb).
      destruct (emit width offs cs true (Some width)) as [o w2] eqn:E. cbn [fst snd] in *.
      exists k'. split; [exact Hk'|]. split; [exact Hs|]. intros s o' Ho.
      change ((c :: cs) ++ s) with ([c] ++ (cs ++ s)).
      replace ((c :: NLc :: spaces offs ++ o) ++ o') with ([c] ++ sep ++ (o ++ o')).
      2:{ unfold sep. simpl. unfold NLc, spaces, blanks. rewrite <- app_assoc. reflexivity. }
      apply br_line; [reflexivity|]. apply Hb. exact Ho.
    + destruct (IH (S k) Hw ltac:(lia)) as (k' & Hk' & Hs & Hb).
      destruct (emit width offs cs true (Some (S k))) as [o w2] eqn:E. cbn [fst snd] in *.
      exists k'. split; [exact Hk'|]. split; [exact Hs|]. intros s o' Ho. cbn [app].
      apply broken_cons. apply Hb. exact Ho.
Qed.

Lemma escape_short : forall c, List.length (escape c) <= 2.
Proof. intros c. unfold escape. repeat (match goal with |- context [match ?x with _ => _ end] => destruct x end; simpl; try lia). Qed.

Lemma emit_detail_broken : forall d k, 0 < width -> 0 < k ->
  broken sep width k (visible_text d) (emit_detail width offs d (Some k)).
Proof.
  induction d as [|c d IH]; intros k Hw Hk.
  - cbn. apply br_last. simpl. lia.
  - cbn [emit_detail visible_text flat_map]. rewrite <- escape_visible. destruct d as [|c2 d].
    + destruct (emit width offs (escape c) false (Some k)) as [o w'] eqn:E.
      pose proof (emit_last (escape c) (Some k)) as Hl. rewrite E in Hl. cbn in Hl. subst o.
      cbn. rewrite app_nil_r. apply br_last. pose proof (escape_short c). lia.
    + destruct (emit_more (escape c) k Hw Hk) as (k' & Hk' & Hs & Hb).
      destruct (emit width offs (escape c) true (Some k)) as [o w'] eqn:E. cbn [fst snd] in *. subst w'.
      apply Hb. apply IH; [exact Hw|exact Hk'].
Qed.
End Wrap.

Lemma fprint_detail_laid : forall ac d width col, exists o, laid_out width col d o /\
  fprint_detail ac d width col = fst (ac_desc ac) ++ o ++ "010"%char :: snd (ac_desc ac).
Proof.
  intros ac d width col. unfold fprint_detail, laid_out. destruct (Nat.eqb width 0) eqn:E.
  - eexists; split; [reflexivity|]. now rewrite emit_detail_plain.
  - apply Nat.eqb_neq in E. eexists; split; [|reflexivity].
    destruct (col <? width) eqn:El; apply emit_detail_broken; try (apply Nat.ltb_lt in El); unfold MIN_DETAIL_WIDTH; lia.
Qed.

(** ** Widths *)

Lemma named : forall t, ctor_kinds t <> None -> exists name, type_name t = Some name.
Proof. intros t H. destruct t; try (exfalso; apply H; reflexivity); vm_compute; eauto. Qed.

Lemma made_ctor : forall n, made n -> ctor_kinds (nty n) <> None.
Proof.
  intros n (id & ps & kids & r & m & H & _) E. unfold construct in H. rewrite E in H. discriminate.
Qed.

Definition cols_le (a b : fwidths) : Prop :=
  fw_ordinal a <= fw_ordinal b /\ fw_start a <= fw_start b /\ fw_end a <= fw_end b /\ fw_name a <= fw_name b.

Lemma cols_le_refl : forall a, cols_le a a.
Proof. intros a; unfold cols_le; lia. Qed.
Lemma cols_le_trans : forall a b c, cols_le a b -> cols_le b c -> cols_le a c.
Proof. unfold cols_le; intros; lia. Qed.

(** the maxima cover a node at a depth *)
Definition covers (m : fwidths) (dn : nat * node) : Prop :=
  let (d, n) := dn in
  nord n <= fw_ordinal m /\ offset (r_start (nrng n)) <= fw_start m /\
  offset (r_end (nrng n)) <= fw_end m /\
  forall name, type_name (nty n) = Some name -> List.length name + d * 2 <= fw_name m.

Lemma covers_le : forall a b dn, cols_le a b -> covers a dn -> covers b dn.
Proof.
  intros a b [d n] (H1 & H2 & H3 & H4) (C1 & C2 & C3 & C4). unfold covers.
  split; [lia|]. split; [lia|]. split; [lia|]. intros name Hn. specialize (C4 name Hn). lia.
Qed.

Section NodeInd.
Variable P : node -> Prop.
Hypothesis H : forall i t r f ks o, Forall P ks -> P (Node i t r f ks o).
Fixpoint node_ind3 (n : node) : P n :=
  match n with
  | Node i t r f ks o =>
      H i t r f ks o ((fix go (l : list node) : Forall P l :=
        match l with [] => Forall_nil _ | k :: l => Forall_cons _ (node_ind3 k) (go l) end) ks)
  end.
End NodeInd.

Lemma field_widths_ok : forall t d m, Forall made (preorder t) ->
  exists m', field_widths d t m = Some m' /\ cols_le m m' /\ Forall (covers m') (outline d t).
Proof.
  induction t as [i ty r f ks o IH] using node_ind3. intros d m Hm.
  cbn [preorder] in Hm. inversion Hm as [|? ? Hn Hks]; subst.
  destruct (named ty (made_ctor _ Hn)) as [name Hname]. cbn [field_widths outline]. rewrite Hname.
  set (m1 := mkfw _ _ _ _).
  assert (Hm1 : cols_le m m1) by (unfold cols_le, m1; cbn; lia).
  assert (Hc1 : covers m1 (d, Node i ty r f ks o)).
  { unfold covers, m1; cbn. split; [lia|]. split; [lia|]. split; [lia|].
    intros name' Hn'. rewrite Hname in Hn'. inversion Hn'; subst. lia. }
  clearbody m1.
  assert (Hgo : forall ks m1, Forall (fun t => forall d m, Forall made (preorder t) ->
      exists m', field_widths d t m = Some m' /\ cols_le m m' /\ Forall (covers m') (outline d t)) ks ->
      Forall made (flat_map preorder ks) ->
      exists m', (fix go (ks : list node) (m : fwidths) : option fwidths :=
         match ks with
         | [] => Some m
         | k :: ks => match field_widths (S d) k m with Some m => go ks m | None => None end
         end) ks m1 = Some m' /\ cols_le m1 m' /\ Forall (covers m') (flat_map (outline (S d)) ks)).
  { clear. induction ks as [|k ks IHk]; intros m1 HF Hmade.
    - exists m1. split; [reflexivity|]. split; [apply cols_le_refl|constructor].
    - inversion HF as [|? ? Hk Hks]; subst. cbn in Hmade. apply Forall_app in Hmade. destruct Hmade as [Ha Hb].
      destruct (Hk (S d) m1 Ha) as (m2 & -> & Hle & Hc). destruct (IHk m2 Hks Hb) as (m3 & -> & Hle3 & Hc3).
      exists m3. split; [reflexivity|]. split; [eapply cols_le_trans; eauto|]. cbn. apply Forall_app. split; [|exact Hc3].
      eapply Forall_impl; [|exact Hc]. intros dn. apply covers_le. exact Hle3. }
  destruct (Hgo ks m1 IH Hks) as (m' & -> & Hle & Hc). exists m'. split; [reflexivity|].
  split; [eapply cols_le_trans; eauto|]. constructor; [|exact Hc]. eapply covers_le; eauto.
Qed.

Lemma field_widths_all_ok : forall ts m, Forall made (forest ts) ->
  exists m', field_widths_all ts m = Some m' /\ cols_le m m' /\ Forall (covers m') (outlines ts).
Proof.
  induction ts as [|t ts IH]; intros m Hm; cbn.
  - exists m. split; [reflexivity|]. split; [apply cols_le_refl|constructor].
  - cbn in Hm. apply Forall_app in Hm. destruct Hm as [Ha Hb].
    destruct (field_widths_ok t 0 m Ha) as (m2 & -> & Hle & Hc).
    destruct (IH m2 Hb) as (m3 & -> & Hle3 & Hc3).
    exists m3. split; [reflexivity|]. split; [eapply cols_le_trans; eauto|]. apply Forall_app. split; [|exact Hc3].
    eapply Forall_impl; [|exact Hc]. intros dn. apply covers_le. exact Hle3.
Qed.

(** ** Whole print-outs *)

Lemma detail_honest : forall ord n, made n -> resolved ord n ->
  exists text, honest (detailstr ord n) text.
Proof.
  intros ord n (id & ps & kids & r & m & Hc & Hf) Hr.
  destruct (construct_shape _ _ _ _ _ _ Hc) as (sh & Hs & Hh & _). rewrite Hf in Hh.
  destruct (detail_defined ord n sh Hs Hh) as [ops Hops].
  { intros x Hx. apply Hr. exact Hx. }
  exists (wtext ops). intros buf. apply detailstr_writes. exact Hops.
Qed.

Lemma honest_has_detail : forall ord n text, honest (detailstr ord n) text -> has_detail ord n text.
Proof.
  intros ord n text H buf Hlt. destruct (H buf) as (b & Hb & Ha). exists b. split; [exact Hb|].
  eapply firstn_agrees; eauto.
Qed.

Lemma has_detail_unique : forall ord n a b, has_detail ord n a -> has_detail ord n b -> a = b.
Proof.
  intros ord n a b Ha Hb. set (buf := repeat NUL (S (List.length a + List.length b))).
  destruct (Ha buf) as (x & Hx & Hfx); [unfold buf; rewrite repeat_length; lia|].
  destruct (Hb buf) as (y & Hy & Hfy); [unfold buf; rewrite repeat_length; lia|].
  rewrite Hx in Hy. inversion Hy; subst. rewrite <- Hfx, <- Hfy. congruence.
Qed.

Lemma has_detail_honest : forall ord n text, made n -> resolved ord n -> has_detail ord n text ->
  honest (detailstr ord n) text.
Proof.
  intros ord n text Hm Hr Hd. destruct (detail_honest ord n Hm Hr) as [t Ht].
  now rewrite (has_detail_unique ord n text t Hd (honest_has_detail _ _ _ Ht)).
Qed.

Lemma arrows_repeat : forall d, arrows d = List.concat (repeat (B "> ") d).
Proof. induction d as [|d IH]; [reflexivity|]. cbn [arrows repeat List.concat]. now rewrite IH. Qed.

Section Lines.
Variables (junk : ascii) (ord : nat -> option nat) (ac : ast_coloring) (width : nat) (fw : fwidths).
Variable detail : node -> bytes.
Let cols := mkcols (fw_ordinal fw) (fw_start fw) (fw_end fw) (fw_name fw).

Definition printable (n : node) : Prop :=
  made n /\ resolved ord n /\ List.length (dec (nord n)) <= 10 /\ has_detail ord n (detail n).

Definition next_cap (cap : nat) (n : node) : nat :=
  if cap <? List.length (detail n) then S (List.length (detail n)) else cap.

Lemma fprint_one_ok : forall d n buf, printable n -> fits cols (d, n) -> 11 < List.length buf ->
  List.length (detail n) <> List.length buf ->
  exists b l, fprint_one junk ord ac width fw d (nty n) n buf = Some (b, l) /\
    line_of cols ac width detail (d, n) l /\ List.length b = next_cap (List.length buf) n.
Proof.
  intros d n buf (Hm & Hr & H10 & Hd) Hfit Hcap Hne. unfold fprint_one.
  set (os := "@"%char :: dec (nord n)).
  assert (Hos : List.length os <= 11) by (unfold os; simpl; lia).
  destruct (snprintf_realloc_complete junk os buf ltac:(lia)) as (b1 & H1 & Hl1 & Hf1 & Hz1).
  rewrite H1. rewrite (proj2 (Nat.ltb_ge _ _)) in Hl1 by lia.
  assert (Hcs : cstr b1 = os).
  { apply cstr_prefix; auto. unfold os. intros [Hx|Hx]; [discriminate|]. now apply dec_no_nul in Hx. }
  destruct (named (nty n) (made_ctor n Hm)) as [name Hname]. rewrite Hname.
  pose proof (has_detail_honest ord n _ Hm Hr Hd) as Hh.
  unfold detailstr_realloc.
  destruct (print_realloc_ok junk _ _ b1 Hh) as (b2 & -> & Hl2 & Ha2); [congruence|].
  rewrite Hl1 in Hl2.
  destruct Hfit as (_ & _ & _ & Hnm). specialize (Hnm name Hname). cbn [cols c_name] in Hnm.
  assert (Hlt : List.length (detail n) < List.length b2).
  { rewrite Hl2. destruct (List.length buf <? List.length (detail n)) eqn:E; [lia|]. apply Nat.ltb_ge in E. lia. }
  destruct (List.length (detail n)) as [|ln] eqn:Eln.
  - destruct (detail n) as [|] eqn:Ed; [|discriminate].
    eexists _, _. split; [reflexivity|]. split.
    + unfold line_of. exists name.
      destruct (fprint_detail_laid ac (detail n) width (c_name cols + c_start cols + c_end cols + c_ord cols + 8)) as (o & Ho & _).
      exists o. split; [exact Hname|]. split; [exact Ho|].
      rewrite Ed, Hcs, arrows_repeat. unfold os, padl, padr, spaces, right_aligned, left_aligned, blanks, NLc.
      cbn [cols c_ord c_start c_end]. repeat rewrite <- app_assoc. reflexivity.
    + rewrite Hl2. unfold next_cap. now rewrite Ed.
  - rewrite <- Eln in *. rewrite (proj2 (Nat.leb_le (d * 2 + List.length name) _)) by lia.
    rewrite (proj2 (Nat.leb_le _ _)) by lia.
    rewrite (firstn_agrees _ _ _ Ha2 Hlt).
    destruct (fprint_detail_laid ac (detail n) width (c_name cols + c_start cols + c_end cols + c_ord cols + 8)) as (o & Ho & Hfd).
    eexists _, _. split; [reflexivity|]. split; [|exact Hl2].
    unfold line_of. exists name, o. split; [exact Hname|]. split; [exact Ho|].
    cbn [cols c_name c_start c_end c_ord] in Hfd. rewrite Hfd.
    destruct (detail n) as [|c0 d0] eqn:Ed; [discriminate|].
    rewrite Hcs, arrows_repeat. replace (d * 2) with (2 * d) by lia.
    unfold os, padl, padr, spaces, right_aligned, left_aligned, blanks, NLc.
    cbn [cols c_ord c_start c_end c_name]. repeat rewrite <- app_assoc. reflexivity.
Qed.

Fixpoint caps (cap : nat) (ns : list node) : nat :=
  match ns with [] => cap | n :: ns => caps (next_cap cap n) ns end.

Definition exact_free (cap : nat) (ns : list node) : Prop :=
  never_exact cap (map (fun n => List.length (detail n)) ns).

Lemma caps_app : forall a b cap, caps cap (a ++ b) = caps (caps cap a) b.
Proof. induction a as [|n a IH]; intros b cap; [reflexivity|]. cbn. apply IH. Qed.
Lemma exact_free_app : forall a b cap, exact_free cap (a ++ b) <-> exact_free cap a /\ exact_free (caps cap a) b.
Proof.
  induction a as [|n a IH]; intros b cap; cbn; [split; [auto|intros []; auto]|].
  unfold exact_free in *. cbn. fold (next_cap cap n). rewrite (IH b (next_cap cap n)). tauto.
Qed.
Lemma caps_ge : forall ns cap, cap <= caps cap ns.
Proof.
  induction ns as [|n ns IH]; intros cap; cbn; [lia|]. transitivity (next_cap cap n); [|apply IH].
  unfold next_cap. destruct (cap <? List.length (detail n)) eqn:E; [apply Nat.ltb_lt in E|]; lia.
Qed.

Lemma fprint_rec_ok : forall t d buf, Forall printable (preorder t) -> Forall (fits cols) (outline d t) ->
  11 < List.length buf -> exact_free (List.length buf) (preorder t) ->
  exists b ls, fprint_rec junk ord ac width fw d t buf = Some (b, List.concat ls) /\
    Forall2 (line_of cols ac width detail) (outline d t) ls /\
    List.length b = caps (List.length buf) (preorder t).
Proof.
  induction t as [i ty r f ks o IH] using node_ind3. intros d buf Hp Hfit Hcap He.
  cbn [preorder outline] in *. inversion Hp as [|? ? Hn Hks]; subst.
  inversion Hfit as [|? ? Hfn Hfk]; subst.
  destruct He as [Hne He].
  destruct (fprint_one_ok d (Node i ty r f ks o) buf Hn Hfn Hcap Hne) as (b1 & l1 & H1 & Hl1 & Hb1).
  cbn [fprint_rec]. cbn [nty] in H1. rewrite H1. cbn [caps].
  fold (next_cap (List.length buf) (Node i ty r f ks o)) in He. rewrite <- Hb1 in He |- *.
  assert (Hcap1 : 11 < List.length b1).
  { rewrite Hb1. pose proof (caps_ge [Node i ty r f ks o] (List.length buf)). cbn in H. lia. }
  clear Hne H1 Hb1 Hcap buf Hp Hfit Hn Hfn.
  assert (Hgo : forall ks b1 out, Forall (fun t => forall d buf, Forall printable (preorder t) ->
      Forall (fits cols) (outline d t) -> 11 < List.length buf -> exact_free (List.length buf) (preorder t) ->
      exists b ls, fprint_rec junk ord ac width fw d t buf = Some (b, List.concat ls) /\
        Forall2 (line_of cols ac width detail) (outline d t) ls /\
        List.length b = caps (List.length buf) (preorder t)) ks ->
      Forall printable (flat_map preorder ks) -> Forall (fits cols) (flat_map (outline (S d)) ks) ->
      11 < List.length b1 -> exact_free (List.length b1) (flat_map preorder ks) ->
      exists b ls, (fix go (ks : list node) (buf o : bytes) : option (bytes * bytes) :=
             match ks with
             | [] => Some (buf, o)
             | k :: ks =>
                 match fprint_rec junk ord ac width fw (S d) k buf with
                 | None => None
                 | Some (buf, o') => go ks buf (o ++ o')
                 end
             end) ks b1 out = Some (b, out ++ List.concat ls) /\
        Forall2 (line_of cols ac width detail) (flat_map (outline (S d)) ks) ls /\
        List.length b = caps (List.length b1) (flat_map preorder ks)).
  { clear. induction ks as [|k ks IHk]; intros b1 out HF Hp Hfit Hcap He.
    - exists b1, []. cbn. rewrite app_nil_r. auto.
    - inversion HF as [|? ? Hk Hks]; subst. cbn in Hp, Hfit, He.
      apply Forall_app in Hp, Hfit. destruct Hp as [Hp1 Hp2], Hfit as [Hf1 Hf2].
      apply exact_free_app in He. destruct He as [He1 He2].
      destruct (Hk (S d) b1 Hp1 Hf1 Hcap He1) as (b2 & ls2 & -> & Hls2 & Hb2).
      rewrite <- Hb2 in He2. pose proof (caps_ge (preorder k) (List.length b1)).
      destruct (IHk b2 (out ++ List.concat ls2) Hks Hp2 Hf2 ltac:(lia) He2) as (b3 & ls3 & -> & Hls3 & Hb3).
      exists b3, (ls2 ++ ls3). split; [now rewrite concat_app, app_assoc|]. split.
      + cbn. apply Forall2_app; assumption.
      + cbn. now rewrite caps_app, <- Hb2. }
  destruct (Hgo ks b1 l1 IH Hks Hfk Hcap1 He) as (b & ls & -> & Hls & Hb).
  exists b, (l1 :: ls). split; [reflexivity|]. split; [constructor; assumption|exact Hb].
Qed.

Lemma fprint_all_ok : forall ts buf, Forall printable (forest ts) -> Forall (fits cols) (outlines ts) ->
  11 < List.length buf -> exact_free (List.length buf) (forest ts) ->
  exists b ls, fprint_all junk ord ac width fw ts buf = Some (b, List.concat ls) /\
    Forall2 (line_of cols ac width detail) (outlines ts) ls.
Proof.
  induction ts as [|t ts IH]; intros buf Hp Hfit Hcap He.
  - exists buf, []. split; [reflexivity|constructor].
  - cbn in Hp, Hfit, He. apply Forall_app in Hp, Hfit. destruct Hp as [Hp1 Hp2], Hfit as [Hf1 Hf2].
    apply exact_free_app in He. destruct He as [He1 He2].
    destruct (fprint_rec_ok t 0 buf Hp1 Hf1 Hcap He1) as (b2 & ls2 & H2 & Hls2 & Hb2).
    cbn [fprint_all]. rewrite H2. rewrite <- Hb2 in He2. pose proof (caps_ge (preorder t) (List.length buf)).
    destruct (IH b2 Hp2 Hf2 ltac:(lia) He2) as (b3 & ls3 & -> & Hls3).
    exists b3, (ls2 ++ ls3). split; [now rewrite concat_app|]. cbn. apply Forall2_app; assumption.
Qed.
End Lines.

Lemma fprintv_lines : forall lz junk ord ac width detail ts buf,
  List.length buf = fprint_bufcap ->
  Forall (fun n => made n /\ resolved ord n /\ List.length (dec (nord n)) <= 10 /\
                   has_detail ord n (detail n)) (forest ts) ->
  never_exact fprint_bufcap (map (fun n => List.length (detail n)) (forest ts)) ->
  exists cols lines,
    fprintv lz junk ord ac width ts buf = Some (List.concat lines) /\
    Forall (fits cols) (outlines ts) /\
    Forall2 (line_of cols ac width detail) (outlines ts) lines.
Proof.
  intros lz junk ord ac width detail ts buf Hbuf Hp He.
  destruct (field_widths_all_ok ts (mkfw 0 0 0 0)) as (m & Hm & _ & Hc).
  { eapply Forall_impl; [|exact Hp]. intros n Hn. apply Hn. }
  unfold fprintv. rewrite Hm. set (fw := mkfw _ _ _ _).
  set (cols := mkcols (fw_ordinal fw) (fw_start fw) (fw_end fw) (fw_name fw)).
  assert (Hfit : Forall (fits cols) (outlines ts)).
  { eapply Forall_impl; [|exact Hc]. intros [d n] (C1 & C2 & C3 & C4). unfold fits, cols, fw.
    cbn [c_ord c_start c_end c_name fw_ordinal fw_start fw_end fw_name].
    pose proof (ulog10_wide lz _ _ C1). pose proof (ulog10_wide lz _ _ C2). pose proof (ulog10_wide lz _ _ C3).
    split; [lia|]. split; [lia|]. split; [lia|]. intros name Hn. specialize (C4 name Hn). lia. }
  destruct (fprint_all_ok junk ord ac width fw detail ts buf Hp Hfit) as (b & ls & Hall & Hls).
  { rewrite Hbuf. unfold fprint_bufcap. lia. }
  { unfold exact_free. now rewrite Hbuf. }
  exists cols, ls. rewrite Hall. split; [reflexivity|]. split; assumption.
Qed.
