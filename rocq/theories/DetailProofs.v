(** * Facts about detail strings *)
From Coq Require Import List Bool Arith Ascii String Lia.
From Verif Require Import Peg OperModel CypherSyntax AstTypes AstModel DetailModel.
Import ListNotations.

Local Opaque dec.

(** ** Writing into a buffer *)

Lemma put_some : forall buf i c, i < List.length buf ->
  exists b, put buf i c = Some b /\ List.length b = List.length buf /\
    nth_error b i = Some c /\ forall j, j <> i -> nth_error b j = nth_error buf j.
Proof.
  induction buf as [|x buf IH]; intros i c H; simpl in H; [lia|].
  destruct i as [|i]; simpl.
  - eexists; split; [reflexivity|]. split; [reflexivity|]. split; [reflexivity|].
    intros [|j] Hj; [lia|reflexivity].
  - destruct (IH i c ltac:(lia)) as (b & -> & Hl & Hn & Ho). simpl.
    eexists; split; [reflexivity|]. split; [simpl; lia|]. split; [exact Hn|].
    intros [|j] Hj; [reflexivity|simpl; apply Ho; lia].
Qed.

Lemma put_all_some : forall s buf i, i + List.length s <= List.length buf ->
  exists b, put_all buf i s = Some b /\ List.length b = List.length buf /\
    (forall j, j < i -> nth_error b j = nth_error buf j) /\
    (forall j, i <= j < i + List.length s -> nth_error b j = nth_error s (j - i)).
Proof.
  induction s as [|c s IH]; intros buf i H; simpl in H |- *.
  - eexists; split; [reflexivity|]. split; [reflexivity|]. split; [reflexivity|]. intros; lia.
  - destruct (put_some buf i c ltac:(lia)) as (b1 & -> & Hl1 & Hn1 & Ho1).
    destruct (IH b1 (S i) ltac:(lia)) as (b & -> & Hl & Hlo & Hhi).
    eexists; split; [reflexivity|]. split; [lia|]. split.
    + intros j Hj. rewrite Hlo by lia. apply Ho1; lia.
    + intros j Hj. destruct (Nat.eq_dec j i) as [->|Hne].
      * rewrite Hlo by lia. rewrite Hn1. now rewrite Nat.sub_diag.
      * rewrite Hhi by lia. replace (j - i) with (S (j - S i)) by lia. reflexivity.
Qed.

(** the text a writing statement stands for *)
Definition wtext1 (o : wop) : bytes :=
  match o with
  | WPrintf s => s
  | WChar _ c _ => [c]
  | WCopy s adv _ => firstn adv s
  | WTerm => []
  end.
Definition wtext (ops : list wop) : bytes := flat_map wtext1 ops.

Definition wf_wop (o : wop) : bool :=
  match o with
  | WPrintf _ => true
  | WChar m _ ZNext => Nat.eqb m 1
  | WChar m _ _ => m <=? 1
  | WCopy s adv _ => adv <=? List.length s
  | WTerm => false
  end.

Definition agrees (size : nat) (buf text : bytes) : Prop :=
  List.length buf = size /\
  forall i, i < Nat.min (List.length text) (size - 1) -> nth_error buf i = nth_error text i.

Lemma nth_firstn_lt : forall (X : Type) (l : list X) m i, i < m -> nth_error (firstn m l) i = nth_error l i.
Proof.
  induction l as [|x l IH]; intros [|m] [|i] H; simpl; try lia; auto. apply IH; lia.
Qed.

Lemma wexec_ok : forall size o buf text, wf_wop o = true -> agrees size buf text ->
  exists b, wexec size o (buf, List.length text) = Some (b, List.length (text ++ wtext1 o)) /\
            agrees size b (text ++ wtext1 o).
Proof.
  intros size o buf text Hwf [Hl Ha]. destruct o as [s|m c z|s adv al|]; cbn [wexec wtext1]; rewrite app_length.
  - destruct (List.length text <? size) eqn:E; [apply Nat.ltb_lt in E|apply Nat.ltb_ge in E].
    + destruct (size - List.length text) as [|m] eqn:Em; [lia|].
      assert (Hlen : List.length (firstn m s ++ [NUL]) <= S m).
      { rewrite app_length, firstn_length. simpl. lia. }
      destruct (put_all_some (firstn m s ++ [NUL]) buf (List.length text) ltac:(lia)) as (b & -> & Hbl & Hlo & Hhi).
      exists b. split; [reflexivity|]. split; [lia|]. intros i Hi. rewrite app_length in Hi.
      destruct (Nat.lt_ge_cases i (List.length text)) as [Hlt|Hge].
      * rewrite Hlo by lia. rewrite nth_error_app1 by lia. apply Ha. lia.
      * rewrite nth_error_app2 by lia.
        assert (Hf : List.length (firstn m s) = Nat.min m (List.length s)) by apply firstn_length.
        rewrite Hhi by (rewrite app_length; simpl; lia).
        rewrite nth_error_app1 by lia. apply nth_firstn_lt. lia.
    + simpl. exists buf. split; [reflexivity|]. split; [exact Hl|]. intros i Hi. rewrite app_length in Hi.
      rewrite nth_error_app1 by lia. apply Ha; lia.
  - assert (Hm : m <= 1) by (destruct z; cbn in Hwf; [apply Nat.leb_le in Hwf|apply Nat.eqb_eq in Hwf|apply Nat.leb_le in Hwf]; lia).
    destruct (List.length text + m <? size) eqn:E; [apply Nat.ltb_lt in E|apply Nat.ltb_ge in E].
    + destruct (put_some buf (List.length text) c ltac:(lia)) as (b & -> & Hbl & Hn & Ho).
      assert (Hb : agrees size b (text ++ [c])).
      { split; [lia|]. intros i Hi. rewrite app_length in Hi; simpl in Hi.
        destruct (Nat.eq_dec i (List.length text)) as [->|Hne].
        - rewrite nth_error_app2, Nat.sub_diag by lia. exact Hn.
        - rewrite nth_error_app1 by lia. rewrite Ho by lia. apply Ha; lia. }
      destruct z.
      * exists b. simpl. rewrite Nat.add_1_r. auto.
      * cbn in Hwf; apply Nat.eqb_eq in Hwf; subst m.
        destruct (put_some b (S (List.length text)) NUL ltac:(lia)) as (b2 & -> & Hbl2 & Hn2 & Ho2).
        exists b2. simpl. rewrite Nat.add_1_r. split; [reflexivity|]. split; [lia|].
        intros i Hi. rewrite app_length in Hi; simpl in Hi. rewrite Ho2 by lia. apply Hb. rewrite app_length; simpl; lia.
      * destruct (put_some b (size - 1) NUL ltac:(lia)) as (b2 & -> & Hbl2 & Hn2 & Ho2).
        exists b2. simpl. rewrite Nat.add_1_r. split; [reflexivity|]. split; [lia|].
        intros i Hi. rewrite Ho2 by lia. apply Hb. lia.
    + exists buf. simpl. rewrite Nat.add_1_r. split; [reflexivity|]. split; [exact Hl|].
      intros i Hi. rewrite app_length in Hi; simpl in Hi. rewrite nth_error_app1 by lia. apply Ha; lia.
  - cbn in Hwf. apply Nat.leb_le in Hwf. rewrite firstn_length, Nat.min_l by lia.
    destruct (List.length text <? size) eqn:E; [apply Nat.ltb_lt in E|apply Nat.ltb_ge in E].
    + set (w := strncpy_bytes s (size - List.length text)).
      assert (Hw : List.length w = size - List.length text).
      { unfold w, strncpy_bytes. rewrite firstn_length, app_length, repeat_length. lia. }
      destruct (put_all_some w buf (List.length text) ltac:(lia)) as (b & -> & Hbl & Hlo & Hhi).
      destruct (put_some b (size - 1) NUL ltac:(lia)) as (b2 & -> & Hbl2 & Hn2 & Ho2).
      exists b2. split; [reflexivity|]. split; [lia|]. intros i Hi.
      rewrite app_length, firstn_length in Hi.
      rewrite Ho2 by lia. destruct (Nat.lt_ge_cases i (List.length text)) as [Hlt|Hge].
      * rewrite Hlo by lia. rewrite nth_error_app1 by lia. apply Ha. lia.
      * rewrite nth_error_app2 by lia. rewrite Hhi by lia. unfold w, strncpy_bytes.
        rewrite nth_firstn_lt by lia. rewrite nth_error_app1 by lia. symmetry; apply nth_firstn_lt; lia.
    + assert (Hsame : agrees size buf (text ++ firstn adv s)).
      { split; [exact Hl|]. intros i Hi. rewrite app_length in Hi.
        rewrite nth_error_app1 by lia. apply Ha; lia. }
      destruct (al && (0 <? size)) eqn:Eal.
      * apply andb_true_iff in Eal. destruct Eal as [_ Es]. apply Nat.ltb_lt in Es.
        destruct (put_some buf (size - 1) NUL ltac:(lia)) as (b2 & -> & Hbl2 & Hn2 & Ho2).
        exists b2. split; [reflexivity|]. split; [lia|]. intros i Hi.
        rewrite Ho2 by lia. apply Hsame; lia.
      * exists buf. auto.
  - discriminate.
Qed.

Lemma wrun_ok : forall ops size buf text, forallb wf_wop ops = true -> agrees size buf text ->
  exists b, wrun size ops (buf, List.length text) = Some (b, List.length (text ++ wtext ops)) /\
            agrees size b (text ++ wtext ops).
Proof.
  induction ops as [|o ops IH]; intros size buf text Hwf Ha; cbn [wrun wtext flat_map].
  - exists buf. rewrite app_nil_r. auto.
  - cbn in Hwf. apply andb_true_iff in Hwf. destruct Hwf as [Ho Hops].
    destruct (wexec_ok size o buf text Ho Ha) as (b & -> & Hb).
    destruct (IH size b (text ++ wtext1 o) Hops Hb) as (b2 & Hr & H2).
    exists b2. unfold wtext in Hr, H2. rewrite <- app_assoc in Hr, H2. auto.
Qed.

(** ** Well-formed programs *)

Definition wf_ops (ops : list wop) : bool :=
  match ops with [WTerm] => true | _ => forallb wf_wop ops end.

Lemma wf_ops_run : forall ops size buf, wf_ops ops = true -> List.length buf = size ->
  exists b, wrun size ops (buf, 0) = Some (b, List.length (wtext ops)) /\ agrees size b (wtext ops).
Proof.
  intros ops size buf Hwf Hl.
  assert (Hgen : forallb wf_wop ops = true -> exists b,
            wrun size ops (buf, 0) = Some (b, List.length (wtext ops)) /\ agrees size b (wtext ops)).
  { intros H. apply (wrun_ok ops size buf [] H). split; [exact Hl|]. simpl; intros; lia. }
  destruct ops as [|o [|o2 ops]]; [apply Hgen; exact Hwf| |destruct o; apply Hgen; exact Hwf].
  destruct o; try (apply Hgen; exact Hwf). cbn.
  destruct size as [|size]; cbn.
  - exists buf. split; [reflexivity|]. split; [exact Hl|]. simpl; intros; lia.
  - destruct (put_some buf 0 NUL ltac:(lia)) as (b & -> & Hbl & _ & _). exists b.
    split; [reflexivity|]. split; [lia|]. simpl; intros; lia.
Qed.

Fixpoint wf_stmt (s : dstmt) : bool :=
  let all := fix all (l : list dstmt) := match l with [] => true | s :: l => wf_stmt s && all l end in
  match s with
  | SPrintf _ => true
  | SChar m c z => wf_wop (WChar m c z)
  | SCopy t adv al => wf_wop (WCopy t adv al)
  | STerm => false
  | SSequence _ => true
  | SWhen _ b | SEach _ _ b | SEachOp _ _ b => all b
  end.

Definition wf_prog (p : list dstmt) : bool :=
  match p with [STerm] => true | _ => forallb wf_stmt p end.

Lemma all_progs_wf : forallb (fun t => wf_prog (detail_prog t)) all_types = true.
Proof. vm_compute. reflexivity. Qed.

Section Ind.
Variable P : dstmt -> Prop.
Hypothesis HP : forall ps, P (SPrintf ps).
Hypothesis HC : forall m c z, P (SChar m c z).
Hypothesis HY : forall s a b, P (SCopy s a b).
Hypothesis HT : P STerm.
Hypothesis HS : forall k, P (SSequence k).
Hypothesis HW : forall c b, Forall P b -> P (SWhen c b).
Hypothesis HE : forall k st b, Forall P b -> P (SEach k st b).
Hypothesis HO : forall k st b, Forall P b -> P (SEachOp k st b).
Fixpoint dstmt_ind2 (s : dstmt) : P s :=
  let all := fix all (l : list dstmt) : Forall P l :=
    match l with [] => Forall_nil _ | s :: l => Forall_cons _ (dstmt_ind2 s) (all l) end in
  match s with
  | SPrintf ps => HP ps
  | SChar m c z => HC m c z
  | SCopy t a b => HY t a b
  | STerm => HT
  | SSequence k => HS k
  | SWhen c b => HW c b (all b)
  | SEach k st b => HE k st b (all b)
  | SEachOp k st b => HO k st b (all b)
  end.
End Ind.

Section Facts.
Variable ord : nat -> option nat.
Variable flds : list field.

Fixpoint evs (i cnt stride : nat) (l : list dstmt) : option (list wop) :=
  match l with
  | [] => Some []
  | s :: l => oapp (deval ord flds i cnt stride s) (evs i cnt stride l)
  end.

Lemma deval_when : forall i cnt st c b, deval ord flds i cnt st (SWhen c b) =
  match deval_cond flds i cnt c with Some true => evs i cnt st b | Some false => Some [] | None => None end.
Proof. reflexivity. Qed.
Lemma deval_each : forall i cnt st k s b, deval ord flds i cnt st (SEach k s b) =
  match nth_error flds k with
  | Some (FList l) =>
      fold_right (fun j acc => oapp (evs j (List.length l / s) s b) acc) (Some []) (seq 0 (List.length l / s))
  | _ => None
  end.
Proof. reflexivity. Qed.
Lemma deval_eachop : forall i cnt st k s b, deval ord flds i cnt st (SEachOp k s b) =
  match nth_error flds k with
  | Some (FOpers l) =>
      fold_right (fun j acc => oapp (evs j (List.length l) s b) acc) (Some []) (seq 0 (List.length l))
  | _ => None
  end.
Proof. reflexivity. Qed.

Lemma oapp_some : forall (X : Type) (a b : option (list X)) r, oapp a b = Some r ->
  exists x y, a = Some x /\ b = Some y /\ r = x ++ y.
Proof. intros X [x|] [y|] r H; inversion H; subst; eauto. Qed.

Lemma seq_items_wf : forall l r, seq_items ord l = Some r -> forallb wf_wop r = true.
Proof.
  induction l as [|x l IH]; intros r H; cbn in H; [inversion H; reflexivity|].
  destruct (ord x); [|discriminate]. destruct (seq_items ord l) as [r'|]; [|discriminate].
  inversion H; subst. destruct l; cbn; apply (IH r' eq_refl).
Qed.

Definition good (s : dstmt) : Prop := wf_stmt s = true ->
  forall i cnt st r, deval ord flds i cnt st s = Some r -> forallb wf_wop r = true.

Lemma evs_good : forall b, Forall good b ->
  (fix all (l : list dstmt) := match l with [] => true | s :: l => wf_stmt s && all l end) b = true ->
  forall i cnt st r, evs i cnt st b = Some r -> forallb wf_wop r = true.
Proof.
  induction 1 as [|s b Hs Hb IH]; intros Hwf i cnt st r H; cbn in H.
  - inversion H; reflexivity.
  - apply andb_true_iff in Hwf. destruct Hwf as [H1 H2].
    apply oapp_some in H. destruct H as (x & y & Hx & Hy & ->).
    rewrite forallb_app. rewrite (Hs H1 _ _ _ _ Hx), (IH H2 _ _ _ _ Hy). reflexivity.
Qed.

Lemma loop_good : forall m s b l r, (forall j r, evs j m s b = Some r -> forallb wf_wop r = true) ->
  fold_right (fun j acc => oapp (evs j m s b) acc) (Some []) l = Some r -> forallb wf_wop r = true.
Proof.
  intros m s b. induction l as [|j l IH]; intros r Hev H; cbn in H.
  - inversion H; reflexivity.
  - apply oapp_some in H. destruct H as (x & y & Hx & Hy & ->).
    rewrite forallb_app, (Hev _ _ Hx), (IH _ Hev Hy). reflexivity.
Qed.

Lemma deval_good : forall s, good s.
Proof.
  induction s using dstmt_ind2; intros Hwf i cnt st0 r He.
  - cbn in He. destruct (deval_pieces _ _ _ _ _ _); inversion He; reflexivity.
  - cbn in He. inversion He; subst. cbn in *. now rewrite Hwf.
  - cbn in He. inversion He; subst. cbn in *. now rewrite Hwf.
  - discriminate.
  - cbn in He. destruct (nth_error flds k) as [[]|]; try discriminate.
    unfold seq_ops in He. destruct (seq_items ord l) as [q|] eqn:Eq; [|discriminate].
    cbn in He. inversion He; subst. cbn. rewrite forallb_app, (seq_items_wf _ _ Eq). reflexivity.
  - rewrite deval_when in He. destruct (deval_cond _ _ _ _) as [[]|]; [|inversion He; reflexivity|discriminate].
    eapply evs_good; eauto.
  - rewrite deval_each in He. destruct (nth_error flds k) as [[]|]; try discriminate.
    eapply loop_good; [|exact He]. intros j q Hq. eapply evs_good; eauto.
  - rewrite deval_eachop in He. destruct (nth_error flds k) as [[]|]; try discriminate.
    eapply loop_good; [|exact He]. intros j q Hq. eapply evs_good; eauto.
Qed.

Lemma devals_good : forall p r, forallb wf_stmt p = true -> devals ord flds p = Some r -> forallb wf_wop r = true.
Proof.
  induction p as [|s p IH]; intros r Hwf H; cbn in H.
  - inversion H; reflexivity.
  - cbn in Hwf. apply andb_true_iff in Hwf. destruct Hwf as [H1 H2].
    apply oapp_some in H. destruct H as (x & y & Hx & Hy & ->).
    rewrite forallb_app, (deval_good s H1 _ _ _ _ Hx), (IH _ H2 Hy). reflexivity.
Qed.

Lemma prog_good : forall p r, wf_prog p = true -> devals ord flds p = Some r -> wf_ops r = true.
Proof.
  intros p r Hwf H.
  assert (Hgen : forallb wf_stmt p = true -> wf_ops r = true).
  { intros Hp. pose proof (devals_good p r Hp H) as Hr.
    destruct r as [|[] [|]]; try exact Hr; reflexivity. }
  destruct p as [|s [|s2 p]]; [apply Hgen; exact Hwf| |destruct s; apply Hgen; exact Hwf].
  destruct s; try (apply Hgen; exact Hwf).
  cbn in H. inversion H; reflexivity.
Qed.
End Facts.

Lemma all_types_in : forall t, In t all_types.
Proof. destruct t; vm_compute; repeat (first [left; reflexivity | right]). Qed.

(** A detail string printed into a buffer of its size: never out of bounds, the
    result is the length of the text, and the buffer holds the text up to its
    last byte. *)
Lemma detailstr_writes : forall ord n ops, detail_ops ord n = Some ops ->
  forall buf, exists b,
    detailstr ord n buf (List.length buf) = Some (b, List.length (wtext ops)) /\
    agrees (List.length buf) b (wtext ops).
Proof.
  intros ord n ops H buf. unfold detailstr. rewrite H. apply wf_ops_run; [|reflexivity].
  eapply prog_good; [|exact H].
  pose proof all_progs_wf as Hw. rewrite forallb_forall in Hw. apply Hw, all_types_in.
Qed.

(** ** When printing is defined *)

(** What the fields of a node are known to be, from the constructor of its
    type *)
Record shape := mkshape {
  sh_kinds : list pkind;
  sh_nonnull : list nat;      (* node fields that are not NULL *)
  sh_oper : list nat;         (* operator fields that are not NULL *)
  sh_chain : list (nat * nat) (* operators, and a list with one more element *) }.

Definition shape_of (t : asttype) : option shape :=
  match ctor_kinds t with
  | None => None
  | Some ks =>
      let rs := ctor_reqs t in
      Some (mkshape ks
        (flat_map (fun r => match r with RqChild k _ | RqType k _ | RqContains k | RqEither k _ _ => [k] | _ => [] end) rs)
        (flat_map (fun r => match r with RqOper k => [k] | _ => [] end) rs)
        (flat_map (fun r => match r with RqChain o k => [(o, k)] | _ => [] end) rs))
  end.

Definition field_kind (f : field) : pkind :=
  match f with
  | FNode _ => KNode | FList _ => KList | FBool _ => KBool | FDir _ => KDir
  | FOper _ => KOper | FOpers _ => KOpers | FStr _ => KStr
  end.

Record has_shape (sh : shape) (flds : list field) : Prop := mkhs {
  hs_kinds : map field_kind flds = sh_kinds sh;
  hs_nonnull : forall k, In k (sh_nonnull sh) -> exists x, nth_error flds k = Some (FNode (Some x));
  hs_oper : forall k, In k (sh_oper sh) -> exists o, nth_error flds k = Some (FOper (Some o));
  hs_chain : forall o k, In (o, k) (sh_chain sh) ->
    exists ops l, nth_error flds o = Some (FOpers ops) /\ nth_error flds k = Some (FList l) /\
                  List.length l = S (List.length ops) }.

Lemma kinds_eqb_eq : forall a b, kinds_eqb a b = true -> a = b.
Proof.
  induction a as [|x a IH]; intros [|y b] H; try discriminate; [reflexivity|].
  cbn in H. apply andb_true_iff in H. destruct H as [H1 H2]. f_equal; [|apply IH; exact H2].
  destruct x, y; try discriminate; reflexivity.
Qed.

Lemma nth_to_field : forall ps k p, nth_error ps k = Some p ->
  nth_error (map to_field ps) k = Some (to_field p).
Proof. intros. now apply map_nth_error. Qed.

Lemma construct_shape : forall id t ps kids r n, construct id t ps kids r = Some n ->
  exists sh, shape_of t = Some sh /\ has_shape sh (nflds n) /\ nty n = t.
Proof.
  intros id t ps kids r n H. unfold construct, shape_of in *.
  destruct (ctor_kinds t) as [ks|]; [|discriminate].
  destruct (kinds_eqb (map kind_of ps) ks && forallb (check ps kids) (ctor_reqs t)) eqn:E; [|discriminate].
  apply andb_true_iff in E. destruct E as [Ek Er]. apply kinds_eqb_eq in Ek.
  rewrite forallb_forall in Er. inversion H; subst n; clear H. cbn [nflds nty].
  eexists; split; [reflexivity|]. split; [|reflexivity]. constructor; cbn [sh_kinds sh_nonnull sh_oper sh_chain].
  - rewrite map_map, <- Ek. apply map_ext. intros []; reflexivity.
  - intros k Hk. apply in_flat_map in Hk. destruct Hk as (q & Hq & Hin). specialize (Er q Hq).
    assert (Hx : exists x, nth_error ps k = Some (PN (Some x))).
    { destruct q; cbn in Hin; try contradiction; destruct Hin as [->|[]]; cbn in Er;
        destruct (nth_error ps k) as [[[x|]| | | | | |]|] eqn:En; try discriminate; eauto. }
    destruct Hx as [x Hx]. rewrite (nth_to_field _ _ _ Hx). cbn. eauto.
  - intros k Hk. apply in_flat_map in Hk. destruct Hk as (q & Hq & Hin). specialize (Er q Hq).
    destruct q; cbn in Hin; try contradiction; destruct Hin as [->|[]]; cbn in Er.
    destruct (nth_error ps k) as [[| | | |[x|] | |]|] eqn:En; try discriminate.
    rewrite (nth_to_field _ _ _ En). cbn. eauto.
  - intros o k Hk. apply in_flat_map in Hk. destruct Hk as (q & Hq & Hin). specialize (Er q Hq).
    destruct q; cbn in Hin; try contradiction; destruct Hin as [Heq|[]]; inversion Heq; subst; cbn in Er.
    destruct (nth_error ps o) as [[| | | | |[|x ops]|]|] eqn:Eo; try discriminate.
    destruct (nth_error ps k) as [[|l| | | | |]|] eqn:En; try discriminate.
    apply Nat.eqb_eq in Er. rewrite (nth_to_field _ _ _ Eo), (nth_to_field _ _ _ En). cbn.
    exists (x :: ops), (map nid l). rewrite map_length. auto.
Qed.

(** the nodes a node points to *)
Definition field_refs (f : field) : list nat :=
  match f with FNode (Some x) => [x] | FList l => l | _ => [] end.
Definition refs (flds : list field) : list nat := flat_map field_refs flds.

Inductive loop_in : Set := LNone | LList (k stride : nat) | LOps (k : nat).

Definition kind_at (sh : shape) (k : nat) (x : pkind) : bool :=
  match nth_error (sh_kinds sh) k with Some y => pkind_eqb x y | None => false end.

Fixpoint ck_cond (sh : shape) (c : dcond) : bool :=
  match c with
  | CFlag k => kind_at sh k KBool
  | CSet k => kind_at sh k KNode
  | CSome k => kind_at sh k KList
  | CDir k _ => kind_at sh k KDir
  | CAnd a b | COr a b => ck_cond sh a && ck_cond sh b
  | _ => true
  end.

Definition inb (k : nat) (l : list nat) : bool := existsb (Nat.eqb k) l.
Definition pairb (o k : nat) (l : list (nat * nat)) : bool :=
  existsb (fun p => Nat.eqb o (fst p) && Nat.eqb k (snd p)) l.

Definition ck_piece (sh : shape) (nn : list nat) (lp : loop_in) (p : piece) : bool :=
  match p with
  | PLit _ => true
  | POrd k => inb k nn
  | PElt k j =>
      match lp with
      | LNone => false
      | LList k' st => Nat.eqb k k' && (j <? st)
      | LOps o => pairb o k (sh_chain sh) && Nat.eqb j 0
      end
  | PLast k => pairb 0 k (sh_chain sh)
  | PStrF k => kind_at sh k KStr
  | POper k => inb k (sh_oper sh)
  | PEltOper k => match lp with LOps o => Nat.eqb k o | _ => false end
  | PIf c _ _ => ck_cond sh c
  end.

(** fields that are not NULL when the condition holds *)
Definition learn (c : dcond) : list nat := match c with CSet k => [k] | _ => [] end.

Fixpoint ck_stmt (sh : shape) (nn : list nat) (lp : loop_in) (s : dstmt) : bool :=
  let all := fix all nn lp (l : list dstmt) :=
    match l with [] => true | s :: l => ck_stmt sh nn lp s && all nn lp l end in
  match s with
  | SPrintf ps => forallb (ck_piece sh nn lp) ps
  | SChar _ _ _ | SCopy _ _ _ | STerm => true
  | SSequence k => kind_at sh k KList
  | SWhen c b => ck_cond sh c && all (learn c ++ nn) lp b
  | SEach k st b => kind_at sh k KList && negb (Nat.eqb st 0) && all nn (LList k st) b
  | SEachOp k st b => kind_at sh k KOpers && Nat.eqb st 1 && all nn (LOps k) b
  end.

Definition ck_prog (t : asttype) : bool :=
  match shape_of t with
  | None => true
  | Some sh => forallb (ck_stmt sh (sh_nonnull sh) LNone) (detail_prog t)
  end.

Lemma all_progs_ck : forallb ck_prog all_types = true.
Proof. vm_compute. reflexivity. Qed.

Section Total.
Variable ord : nat -> option nat.
Variable flds : list field.
Variable sh : shape.
Hypothesis Hsh : has_shape sh flds.
Hypothesis Hord : forall x, In x (refs flds) -> ord x <> None.

Lemma kind_at_field : forall k x, kind_at sh k x = true ->
  exists f, nth_error flds k = Some f /\ field_kind f = x.
Proof.
  intros k x H. unfold kind_at in H. rewrite <- (hs_kinds _ _ Hsh) in H.
  rewrite nth_error_map in H. destruct (nth_error flds k) as [f|]; [|discriminate].
  exists f. split; [reflexivity|]. cbn in H. destruct x, f; try discriminate; reflexivity.
Qed.

Lemma ck_cond_ok : forall c i cnt, ck_cond sh c = true -> exists b, deval_cond flds i cnt c = Some b.
Proof.
  induction c; intros i cnt H; cbn in H |- *;
    try (apply kind_at_field in H; destruct H as (f & -> & Hk); destruct f; try discriminate; eauto).
  - destruct o; eauto.
  - destruct l; eauto.
  - eauto.
  - eauto.
  - eauto.
  - eauto.
  - eauto.
  - apply andb_true_iff in H. destruct H as [H1 H2].
    destruct (IHc1 i cnt H1) as [[] ->]; eauto.
  - apply andb_true_iff in H. destruct H as [H1 H2].
    destruct (IHc1 i cnt H1) as [[] ->]; eauto.
Qed.

Definition nn_ok (nn : list nat) : Prop :=
  forall k, In k nn -> exists x, nth_error flds k = Some (FNode (Some x)).

Definition lp_ok (lp : loop_in) (i stride : nat) : Prop :=
  match lp with
  | LNone => True
  | LList k st => stride = st /\ exists l, nth_error flds k = Some (FList l) /\ st <> 0 /\ i < List.length l / st
  | LOps k => stride = 1 /\ exists l, nth_error flds k = Some (FOpers l) /\ i < List.length l
  end.

Lemma inb_in : forall k l, inb k l = true -> In k l.
Proof. intros k l H. apply existsb_exists in H. destruct H as (x & Hx & E). apply Nat.eqb_eq in E. now subst. Qed.
Lemma pairb_in : forall o k l, pairb o k l = true -> In (o, k) l.
Proof.
  intros o k l H. apply existsb_exists in H. destruct H as ([a b] & Hx & E).
  apply andb_true_iff in E. destruct E as [E1 E2]. apply Nat.eqb_eq in E1, E2. now subst.
Qed.

Lemma ref_node : forall k x, nth_error flds k = Some (FNode (Some x)) -> exists o, ord x = Some o.
Proof.
  intros k x H. destruct (ord x) eqn:E; [eauto|]. exfalso. apply (Hord x); [|exact E].
  apply in_flat_map. exists (FNode (Some x)). split; [eapply nth_error_In; eauto|simpl; auto].
Qed.
Lemma ref_list : forall k l x, nth_error flds k = Some (FList l) -> In x l -> exists o, ord x = Some o.
Proof.
  intros k l x H Hx. destruct (ord x) eqn:E; [eauto|]. exfalso. apply (Hord x); [|exact E].
  apply in_flat_map. exists (FList l). split; [eapply nth_error_In; eauto|simpl; auto].
Qed.
Lemma ref_list_nth : forall k l i, nth_error flds k = Some (FList l) -> i < List.length l ->
  exists x o, nth_error l i = Some x /\ ord x = Some o.
Proof.
  intros k l i H Hi. destruct (nth_error l i) as [x|] eqn:E.
  - destruct (ref_list k l x H (nth_error_In _ _ E)) as [o Ho]. eauto.
  - apply nth_error_None in E. lia.
Qed.

Lemma ck_piece_ok : forall nn lp p i cnt st, ck_piece sh nn lp p = true -> nn_ok nn -> lp_ok lp i st ->
  exists b, deval_piece ord flds i cnt st p = Some b.
Proof.
  intros nn lp p i cnt st H Hnn Hlp. destruct p; cbn [ck_piece deval_piece] in H |- *.
  - eauto.
  - destruct (Hnn k (inb_in _ _ H)) as [x Hx]. rewrite Hx. destruct (ref_node _ _ Hx) as [o ->]. cbn; eauto.
  - destruct lp as [|k' st'|o]; [discriminate| |].
    + apply andb_true_iff in H. destruct H as [H1 H2]. apply Nat.eqb_eq in H1. apply Nat.ltb_lt in H2. subst k'.
      destruct Hlp as (-> & l & Hl & Hst & Hi). rewrite Hl.
      assert (Hlt : i * st' + j < List.length l).
      { pose proof (Nat.mul_div_le (List.length l) st' Hst) as Hm. nia. }
      destruct (ref_list_nth _ _ _ Hl Hlt) as (x & q & -> & ->). cbn; eauto.
    + apply andb_true_iff in H. destruct H as [H1 H2]. apply Nat.eqb_eq in H2. subst j.
      destruct (hs_chain _ _ Hsh _ _ (pairb_in _ _ _ H1)) as (ops & l & Ho & Hl & Hlen). rewrite Hl.
      destruct Hlp as (-> & l' & Hl' & Hi). rewrite Ho in Hl'. inversion Hl'; subst l'.
      destruct (ref_list_nth _ _ (i * 1 + 0) Hl ltac:(lia)) as (x & q & -> & ->). cbn; eauto.
  - destruct (hs_chain _ _ Hsh _ _ (pairb_in _ _ _ H)) as (ops & l & Ho & Hl & Hlen). rewrite Hl, Ho.
    destruct (ref_list_nth _ _ (List.length ops) Hl ltac:(lia)) as (x & q & -> & ->). cbn; eauto.
  - apply kind_at_field in H. destruct H as (f & -> & Hk). destruct f; try discriminate. eauto.
  - destruct (hs_oper _ _ Hsh k (inb_in _ _ H)) as [o ->]. eauto.
  - destruct lp as [| |o]; try discriminate. apply Nat.eqb_eq in H. subst o.
    destruct Hlp as (-> & l & -> & Hi). destruct (nth_error l i) eqn:E; [cbn; eauto|].
    apply nth_error_None in E. lia.
  - destruct (ck_cond_ok c i cnt H) as [[] ->]; eauto.
Qed.

Lemma ck_pieces_ok : forall ps nn lp i cnt st, forallb (ck_piece sh nn lp) ps = true -> nn_ok nn -> lp_ok lp i st ->
  exists b, deval_pieces ord flds i cnt st ps = Some b.
Proof.
  induction ps as [|p ps IH]; intros nn lp i cnt st H Hnn Hlp; cbn in H |- *; [eauto|].
  apply andb_true_iff in H. destruct H as [H1 H2].
  destruct (ck_piece_ok nn lp p i cnt st H1 Hnn Hlp) as [a ->].
  destruct (IH nn lp i cnt st H2 Hnn Hlp) as [b ->]. eauto.
Qed.

Lemma seq_ops_ok : forall k l, nth_error flds k = Some (FList l) -> exists r, seq_ops ord l = Some r.
Proof.
  intros k l H.
  assert (Hall : forall x, In x l -> exists o, ord x = Some o) by (intros; eapply ref_list; eauto).
  clear H. unfold seq_ops.
  assert (He : exists r, seq_items ord l = Some r).
  { induction l as [|x l IH]; cbn; [eauto|]. destruct (Hall x ltac:(simpl; auto)) as [o ->].
    destruct IH as [r ->]; [intros y Hy; apply Hall; simpl; auto|]. eauto. }
  destruct He as [r ->]. cbn. eauto.
Qed.

Definition tot (s : dstmt) : Prop := forall nn lp i cnt st,
  ck_stmt sh nn lp s = true -> nn_ok nn -> lp_ok lp i st ->
  exists r, deval ord flds i cnt st s = Some r.

Lemma evs_tot : forall b, Forall tot b -> forall nn lp i cnt st,
  (fix all nn lp (l : list dstmt) :=
    match l with [] => true | s :: l => ck_stmt sh nn lp s && all nn lp l end) nn lp b = true ->
  nn_ok nn -> lp_ok lp i st -> exists r, evs ord flds i cnt st b = Some r.
Proof.
  induction 1 as [|s b Hs Hb IH]; intros nn lp i cnt st H Hnn Hlp; cbn; [eauto|].
  apply andb_true_iff in H. destruct H as [H1 H2].
  destruct (Hs nn lp i cnt st H1 Hnn Hlp) as [x ->].
  destruct (IH nn lp i cnt st H2 Hnn Hlp) as [y ->]. cbn. eauto.
Qed.

Lemma loop_tot : forall m s b l, (forall j, In j l -> exists r, evs ord flds j m s b = Some r) ->
  exists r, fold_right (fun j acc => oapp (evs ord flds j m s b) acc) (Some []) l = Some r.
Proof.
  intros m s b. induction l as [|j l IH]; intros H; cbn; [eauto|].
  destruct (H j ltac:(simpl; auto)) as [x ->].
  destruct IH as [y ->]; [intros q Hq; apply H; simpl; auto|]. cbn; eauto.
Qed.

Lemma deval_tot : forall s, tot s.
Proof.
  induction s using dstmt_ind2; intros nn lp i cnt st0 Hck Hnn Hlp.
  - cbn in Hck |- *. destruct (ck_pieces_ok ps nn lp i cnt st0 Hck Hnn Hlp) as [x ->]. cbn; eauto.
  - cbn; eauto.
  - cbn; eauto.
  - cbn; eauto.
  - cbn in Hck |- *. apply kind_at_field in Hck. destruct Hck as (f & Hf & Hk). rewrite Hf.
    destruct f; try discriminate. eapply seq_ops_ok; eauto.
  - cbn in Hck. apply andb_true_iff in Hck. destruct Hck as [Hc Hb]. rewrite deval_when.
    destruct (ck_cond_ok c i cnt Hc) as [v Hv]. rewrite Hv. destruct v; [|eauto].
    eapply evs_tot; eauto. intros k Hk. apply in_app_or in Hk. destruct Hk as [Hk|Hk]; [|auto].
    destruct c; cbn in Hk; try contradiction. destruct Hk as [->|[]].
    cbn in Hv. destruct (nth_error flds k) as [[[x|]| | | | | |]|]; try discriminate. eauto.
  - cbn in Hck. apply andb_true_iff in Hck. destruct Hck as [Hc Hb].
    apply andb_true_iff in Hc. destruct Hc as [Hk Hst]. apply negb_true_iff, Nat.eqb_neq in Hst.
    rewrite deval_each. apply kind_at_field in Hk. destruct Hk as (f & Hf & Hk). rewrite Hf.
    destruct f; try discriminate. apply loop_tot. intros j Hj. apply in_seq in Hj.
    eapply evs_tot; eauto. cbn. split; [reflexivity|]. exists l. repeat split; auto. lia.
  - cbn in Hck. apply andb_true_iff in Hck. destruct Hck as [Hc Hb].
    apply andb_true_iff in Hc. destruct Hc as [Hk Hst]. apply Nat.eqb_eq in Hst.
    rewrite deval_eachop. apply kind_at_field in Hk. destruct Hk as (f & Hf & Hk). rewrite Hf.
    destruct f; try discriminate. apply loop_tot. intros j Hj. apply in_seq in Hj.
    eapply evs_tot; eauto. cbn. split; [assumption|]. exists l. split; auto. lia.
Qed.

Lemma devals_tot : forall p, forallb (ck_stmt sh (sh_nonnull sh) LNone) p = true ->
  exists r, devals ord flds p = Some r.
Proof.
  induction p as [|s p IH]; intros H; cbn in H |- *; [eauto|].
  apply andb_true_iff in H. destruct H as [H1 H2].
  destruct (deval_tot s (sh_nonnull sh) LNone 0 0 1 H1 (hs_nonnull _ _ Hsh) I) as [x ->].
  destruct (IH H2) as [y ->]. cbn; eauto.
Qed.
End Total.

Lemma detail_defined : forall ord n sh, shape_of (nty n) = Some sh -> has_shape sh (nflds n) ->
  (forall x, In x (refs (nflds n)) -> ord x <> None) -> exists ops, detail_ops ord n = Some ops.
Proof.
  intros ord n sh Hs Hh Ho. eapply devals_tot; eauto.
  pose proof all_progs_ck as Hw. rewrite forallb_forall in Hw.
  specialize (Hw (nty n) (all_types_in _)). unfold ck_prog in Hw. now rewrite Hs in Hw.
Qed.
