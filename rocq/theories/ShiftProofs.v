(** * The parse does not depend on where it starts *)
From Coq Require Import List Bool Arith Ascii String ZArith Lia.
From Verif Require Import Peg QuickModel ErrModel CypherSyntax CypherGrammar OperModel CypherMatch AstTypes AstModel CypherBuild
  CypherExec CypherParse NodeFacts CypherRound CypherLoop ShiftSpec.
Import ListNotations.
Opaque parse_one cfuel.
Strategy expand [crun].

(** ** Matching with related states *)
Section Sim.
Context {R Q A U V : Type}.
Variables (G : R -> pexp R A Q) (get : nat -> option ascii).
Variables (pu : Q -> nat -> option ascii -> U -> option (bool * U * list A)).
Variables (pv : Q -> nat -> option ascii -> V -> option (bool * V * list A)).
Variable rel : U -> V -> Prop.
Hypothesis rel_step : forall q p c u v, rel u v ->
  match pu q p c u, pv q p c v with
  | Some (b, u', l), Some (b', v', l') => b' = b /\ l' = l /\ rel u' v'
  | None, None => True
  | _, _ => False
  end.

Definition srel (s : pst A U) (t : pst A V) : Prop := pos t = pos s /\ thunks t = thunks s /\ rel (user s) (user t).
Definition rrel (x : res A U) (y : res A V) : Prop :=
  match x, y with
  | ROk s, ROk t | RFail s, RFail t => srel s t
  | RStuck, RStuck | RFuel, RFuel => True
  | _, _ => False
  end.

Lemma restore_rel : forall s t s1 t1, srel s t -> srel s1 t1 -> srel (restore s s1) (restore t t1).
Proof. intros s t s1 t1 [H1 [H2 _]] [_ [_ H3]]. split; [exact H1|]. split; [exact H2|]. exact H3. Qed.

Lemma pred_rel : forall q s t, srel s t -> rrel (run_pred get pu q s) (run_pred get pv q t).
Proof.
  intros q s t [H1 [H2 H3]]. unfold run_pred. rewrite H1. pose proof (rel_step q (pos s) (get (pos s)) _ _ H3) as K.
  destruct (pu q (pos s) (get (pos s)) (user s)) as [[[b u] l]|], (pv q (pos s) (get (pos s)) (user t)) as [[[b' v] l']|]; try contradiction; [|exact I].
  destruct K as [-> [-> K]]. assert (add_thunks l t = add_thunks l s) as E by (unfold add_thunks; rewrite H1, H2; reflexivity).
  destruct b; (split; [|split]); cbn; auto.
Qed.

Lemma run_rel : forall n e s t, srel s t -> rrel (run G get pu n e s) (run G get pv n e t).
Proof.
  induction n as [|n IH]; intros e s t H; [exact I|]. pose proof H as [H1 [H2 H3]].
  destruct e; cbn [Peg.run]; rewrite ?H1.
  - destruct (get (pos s)); [split; cbn; auto|exact H].
  - destruct (get (pos s)) as [a|]; [destruct (beq c a); [split; cbn; auto|exact H]|exact H].
  - destruct (match_str _ _ _ _); split; cbn; auto.
  - destruct (get (pos s)) as [a|]; [destruct (in_class cs a); [split; cbn; auto|exact H]|exact H].
  - pose proof (IH (G r) s t H) as K. destruct (run G get pu n (G r) s), (run G get pv n (G r) t); try contradiction; first [exact K|exact (restore_rel _ _ _ _ H K)].
  - pose proof (IH e1 s t H) as K. destruct (run G get pu n e1 s), (run G get pv n e1 t); try contradiction; try first [exact K|exact (restore_rel _ _ _ _ H K)].
    exact (IH e2 _ _ K).
  - pose proof (IH e1 s t H) as K. destruct (run G get pu n e1 s), (run G get pv n e1 t); try contradiction; try first [exact K|exact (restore_rel _ _ _ _ H K)].
    exact (IH e2 _ _ (restore_rel _ _ _ _ H K)).
  - pose proof (IH e s t H) as K. destruct (run G get pu n e s), (run G get pv n e t); try contradiction; try first [exact K|exact (restore_rel _ _ _ _ H K)].
    exact (IH (PStar e) _ _ K).
  - pose proof (IH e s t H) as K. destruct (run G get pu n e s), (run G get pv n e t); try contradiction; try first [exact K|exact (restore_rel _ _ _ _ H K)].
    exact (IH (PStar e) _ _ K).
  - pose proof (IH e s t H) as K. destruct (run G get pu n e s), (run G get pv n e t); try contradiction; try first [exact K|exact (restore_rel _ _ _ _ H K)].
  - pose proof (IH e s t H) as K. destruct (run G get pu n e s), (run G get pv n e t); try contradiction; try first [exact K|exact (restore_rel _ _ _ _ H K)].
  - pose proof (IH e s t H) as K. destruct (run G get pu n e s), (run G get pv n e t); try contradiction; try first [exact K|exact (restore_rel _ _ _ _ H K)].
  - split; cbn; [auto|]. rewrite H2. auto.
  - apply pred_rel. exact H.
  - pose proof (IH e s t H) as K. destruct (run G get pu n e s) as [s1|s1| |], (run G get pv n e t) as [t1|t1| |]; try contradiction; try first [exact K|exact (restore_rel _ _ _ _ H K)].
    pose proof (pred_rel q _ _ K) as K2. destruct (run_pred get pu q s1), (run_pred get pv q t1); try contradiction; exact K2.
Qed.
End Sim.

(** ** Positions *)
Definition good (p : position) : Prop := 1 <= line p /\ 1 <= column p.

Lemma input_translate : forall p off l q, good off ->
  input_position (translate p off) l q = option_map (translate p) (input_position off l q).
Proof.
  intros p off l q [H1 H2]. unfold input_position. destruct (find_line l q) as [[d t]|] eqn:E; [|reflexivity]. cbn.
  assert (1 <= d) as Hd.
  { clear - E. induction l as [|x l IH]; cbn [find_line] in E; [discriminate|]. destruct (q <? x); [auto|]. injection E as <- _. cbn. lia. }
  unfold translate. cbn [line column offset]. f_equal. f_equal; [lia| |lia].
  destruct (Nat.eqb_spec d 1) as [->|Hn].
  - change (1 - 1 + line off) with (line off). destruct (line off =? 1); lia.
  - destruct (Nat.eqb_spec (d - 1 + line off) 1); lia.
Qed.

Lemma input_good : forall off l q x, good off -> input_position off l q = Some x -> good x.
Proof.
  intros off l q x [H1 H2] E. unfold input_position in E. destruct (find_line l q) as [[d t]|]; [|discriminate].
  injection E as <-. split; cbn; [lia|]. destruct (d =? 1); lia.
Qed.

Lemma translate_same : forall p a b, good a -> good b ->
  (line (translate p a) =? line (translate p b)) && (column (translate p a) =? column (translate p b)) =
  (line a =? line b) && (column a =? column b).
Proof.
  intros p a b [A1 A2] [B1 B2]. unfold translate. cbn [line column].
  destruct (Nat.eqb_spec (line a) (line b)) as [E|E].
  - rewrite E, !Nat.eqb_refl. cbn. destruct (line b =? 1); [|reflexivity].
    destruct (Nat.eqb_spec (column a) (column b)), (Nat.eqb_spec (column a - 1 + column p) (column b - 1 + column p)); (reflexivity || lia).
  - destruct (Nat.eqb_spec (line a - 1 + line p) (line b - 1 + line p)); (reflexivity || lia).
Qed.

(** ** Error tracking *)
Section Shift.
Variable p : position.

Record erel (a b : etrack) : Prop := {
  er_labels : et_labels b = et_labels a;
  er_char : et_char b = et_char a;
  er_errs : et_errs b = map (translate_error p) (et_errs a);
  er_last : et_errs a <> [] -> et_last b = et_last a + offset p;
  er_pos : (et_pos b = translate p (et_pos a) /\ good (et_pos a)) \/
           (offset (et_pos a) = 0 /\ offset (et_pos b) = 0 /\ et_labels a = []) }.

Lemma erel_init : erel et_init et_init.
Proof. split; try reflexivity; [intros []; reflexivity|right; auto]. Qed.

Lemma nonempty_map : forall (X Y : Type) (f : X -> Y) l, nonempty (map f l) = nonempty l.
Proof. intros X Y f [|]; reflexivity. Qed.

Lemma note_shift : forall a b q c l, erel a b -> good q ->
  match et_note a q c l, et_note b (translate p q) c l with
  | Some a', Some b' => erel a' b'
  | None, None => True
  | _, _ => False
  end.
Proof.
  intros a b q c l [H1 H2 H3 H4 H5] Hq. unfold et_note. rewrite H1, H3, nonempty_map.
  assert ((offset (translate p q) <? offset (et_pos b)) = (offset q <? offset (et_pos a))) as ->.
  { destruct H5 as [[-> _]|[-> [-> _]]]; [|reflexivity]. unfold translate. cbn [offset].
    destruct (Nat.ltb_spec (offset q) (offset (et_pos a))), (Nat.ltb_spec (offset q + offset p) (offset (et_pos a) + offset p)); (reflexivity || lia). }
  assert (nonempty (et_errs a) && (offset (translate p q) <=? et_last b) = nonempty (et_errs a) && (offset q <=? et_last a)) as ->.
  { destruct (et_errs a) as [|x es] eqn:E; [reflexivity|]. cbn. rewrite H4 by discriminate.
    destruct (Nat.leb_spec (offset q) (et_last a)), (Nat.leb_spec (offset q + offset p) (et_last a + offset p)); (reflexivity || lia). }
  destruct ((offset q <? offset (et_pos a)) || nonempty (et_errs a) && (offset q <=? et_last a)).
  { split; assumption. }
  assert (negb (nonempty (et_labels a)) || (offset (et_pos b) <? offset (translate p q)) =
          negb (nonempty (et_labels a)) || (offset (et_pos a) <? offset q)) as ->.
  { destruct H5 as [[-> _]|[_ [_ ->]]]; [|reflexivity]. unfold translate. cbn [offset].
    destruct (Nat.ltb_spec (offset (et_pos a)) (offset q)), (Nat.ltb_spec (offset (et_pos a) + offset p) (offset q + offset p)); (reflexivity || lia). }
  destruct (negb (nonempty (et_labels a)) || (offset (et_pos a) <? offset q)) eqn:E; cbn [et_labels et_pos et_char et_errs et_last].
  - cbn. split; cbn; auto.
  - rewrite H1, H2. destruct H5 as [[K1 K2]|[_ [_ K]]]; [|rewrite K in E; discriminate E].
    rewrite K1, (translate_same p _ _ K2 Hq).
    match goal with |- context [if ?x then None else _] => destruct x end; [exact I|].
    destruct (existsb (bytes_eqb l) (et_labels a)).
    + split; auto.
    + split; cbn; auto.
Qed.

Lemma reify_shift : forall col a b, erel a b -> erel (et_reify col a) (et_reify col b).
Proof.
  intros col a b [H1 H2 H3 H4 H5]. unfold et_reify. rewrite H1. destruct (et_labels a) as [|l ls] eqn:E; [split; try (rewrite E); auto|].
  destruct H5 as [[K1 K2]|[_ [_ K]]]; [|discriminate K]. split; cbn; auto.
  - rewrite H3, map_app, K1, H2. reflexivity.
  - intros _. rewrite K1. reflexivity.
Qed.

Record urel (a b : cuser) : Prop := {
  ur_lines : c_lines b = c_lines a;
  ur_precs : c_precs b = c_precs a;
  ur_op : c_op b = c_op a;
  ur_et : erel (c_et a) (c_et b) }.

Lemma urel_step : forall col off q i c u v, good off -> urel u v ->
  match cprun col off q i c u, cprun col (translate p off) q i c v with
  | Some (b, u', l), Some (b', v', l') => b' = b /\ l' = l /\ urel u' v'
  | None, None => True
  | _, _ => False
  end.
Proof.
  intros col off q i c u v Ho [H1 H2 H3 H4]. destruct q; cbn [cprun]; rewrite ?H1, ?H2, ?H3.
  - split; [reflexivity|]. split; [reflexivity|]. split; cbn; (exact H4 || congruence).
  - split; [reflexivity|]. split; [reflexivity|]. split; cbn; (exact H4 || congruence).
  - destruct (c_op u) eqn:E; [|exact I]. split; [reflexivity|]. split; [reflexivity|]. split; cbn; (exact H4 || congruence).
  - destruct (c_op u) eqn:E; [|exact I]. split; [reflexivity|]. split; [reflexivity|]. split; cbn; (exact H4 || congruence).
  - split; [reflexivity|]. split; [reflexivity|]. split; cbn; (exact H4 || congruence).
  - split; [reflexivity|]. split; [reflexivity|]. split; cbn; (exact H4 || congruence).
  - split; [reflexivity|]. split; [reflexivity|]. split; cbn; (exact H4 || congruence).
  - split; [reflexivity|]. split; [reflexivity|]. split; try assumption. apply reify_shift. exact H4.
  - split; [reflexivity|]. split; [reflexivity|]. split; cbn; (exact H4 || congruence).
  - unfold do_err. rewrite H1, input_translate by exact Ho.
    destruct (input_position off (backtrack (c_lines u) i) i) as [x|] eqn:E; [|exact I]. cbn [option_map].
    pose proof (note_shift _ _ x (match c with Some b => b | None => NUL end) label H4 (input_good _ _ _ _ Ho E)) as K.
    destruct (et_note (c_et u) x _ label), (et_note (c_et v) (translate p x) _ label); try contradiction; [|exact I].
    split; [reflexivity|]. split; [reflexivity|]. split; cbn; auto.
Qed.
End Shift.

(** ** Actions *)
Definition xmap {X Y} (f : X -> Y) (r : xres X) : xres Y :=
  match r with XOk x => XOk (f x) | XAssert => XAssert | XInvalid => XInvalid | XUninit => XUninit end.

Lemma xmap_bind : forall X Y Z W (r : xres X) (k : X -> xres Y) (f : X -> Z) (k' : Z -> xres W) (g : Y -> W),
  (forall x, r = XOk x -> k' (f x) = xmap g (k x)) -> xbind (xmap f r) k' = xmap g (xbind r k).
Proof. intros X Y Z W [x| | |] k f k' g H; cbn; auto. Qed.

Section Act.
Variable p : position.
Notation tp := (translate p).
Notation tr := (translate_range p).
Notation tn := (translate_node p 0).
Notation tx := (translate_error p).

Definition tb (b : block) : block :=
  mkblk (b_top b) (b_bstart b) (b_bend b) (tp (b_rstart b)) (tp (b_rend b)) (map tn (b_seq b)) (map tn (b_kids b)).
Definition ta (a : astate) : astate :=
  mkas (map (map (option_map (option_map tn))) (a_frames a)) (option_map tn (a_ret a)) (map tb (a_blocks a))
    (option_map tb (a_prev a)) (a_ops a) (a_sb a) (option_map tn (a_result a)) (a_eof a) (a_consumed a)
    (map tx (a_errs a)) (a_fresh a) (map tn (a_lost a)).

Lemma tn_id : forall n, nid (tn n) = nid n.
Proof. intros []; reflexivity. Qed.
Lemma tn_ty : forall n, nty (tn n) = nty n.
Proof. intros []; reflexivity. Qed.
Lemma tn_is_a : forall n t, is_a (tn n) t = is_a n t.
Proof. intros n t. unfold is_a. rewrite tn_ty. reflexivity. Qed.
Lemma tn_contains : forall ks x, contains (map tn ks) (tn x) = contains ks x.
Proof.
  intros ks x. unfold contains. rewrite tn_id. induction ks as [|k ks IH]; [reflexivity|]. cbn [map existsb]. rewrite tn_id, IH. reflexivity.
Qed.
Lemma tn_all_a : forall l t, all_a (map tn l) t = all_a l t.
Proof. intros l t. unfold all_a. induction l as [|x l IH]; [reflexivity|]. cbn [map forallb]. rewrite tn_is_a, IH. reflexivity. Qed.
Lemma tn_pairs_a : forall l t1 t2, pairs_a (map tn l) t1 t2 = pairs_a l t1 t2.
Proof.
  intros l t1 t2. induction l as [l IH] using (induction_ltof1 _ (@List.length node)). destruct l as [|x [|y l]]; [reflexivity..|].
  cbn [map pairs_a]. rewrite !tn_is_a, IH; [reflexivity|]. unfold ltof. cbn. lia.
Qed.
Lemma tn_alternate : forall l ks t1 t2, alternate (map tn l) (map tn ks) t1 t2 = alternate l ks t1 t2.
Proof. induction l as [|x l IH]; intros; [reflexivity|]. cbn [map alternate]. rewrite tn_is_a, tn_contains, IH. reflexivity. Qed.

Definition tap (x : aparam) : aparam :=
  match x with PN o => PN (option_map tn o) | PL l => PL (map tn l) | _ => x end.

Lemma tap_kind : forall ps, map kind_of (map tap ps) = map kind_of ps.
Proof. intros ps. rewrite map_map. apply map_ext. intros []; reflexivity. Qed.
Lemma tap_field : forall ps, map to_field (map tap ps) = map to_field ps.
Proof.
  intros ps. rewrite map_map. apply map_ext. intros []; try reflexivity; cbn.
  - destruct o; cbn; [rewrite tn_id|]; reflexivity.
  - rewrite map_map. f_equal. apply map_ext. apply tn_id.
Qed.

Lemma tap_check : forall ps ks r, check (map tap ps) (map tn ks) r = check ps ks r.
Proof.
  intros ps ks r. destruct r; cbn [check]; rewrite !nth_error_map;
    repeat match goal with |- context [option_map tap (nth_error ps ?k)] => destruct (nth_error ps k) as [[on|ln|bb|d|oo|os|st]|]; cbn [option_map tap] end;
    try reflexivity;
    try (destruct on as [on|]; cbn [option_map]); try reflexivity;
    rewrite ?tn_is_a, ?tn_contains, ?tn_all_a, ?tn_pairs_a, ?tn_alternate, ?map_length, ?firstn_map, ?tn_all_a; try reflexivity;
    try (destruct ln; reflexivity).
  - destruct bb, (nth_error ps k) as [[on|ln|b2|d|oo|os|st]|]; try reflexivity. destruct ln; reflexivity.
  - destruct os; [reflexivity|]. destruct (nth_error ps k) as [[on|ln|b2|d|oo|os2|st]|]; try reflexivity.
    cbn [option_map tap]. rewrite map_length. reflexivity.
Qed.

Lemma construct_shift : forall i t ps ks r,
  construct i t (map tap ps) (map tn ks) (tr r) = option_map tn (construct i t ps ks r).
Proof.
  intros i t ps ks r. unfold construct. destruct (ctor_kinds t) as [k|]; [|reflexivity].
  rewrite tap_kind. assert (forallb (check (map tap ps) (map tn ks)) (ctor_reqs t) = forallb (check ps ks) (ctor_reqs t)) as ->.
  { induction (ctor_reqs t) as [|x l IH]; [reflexivity|]. cbn [forallb]. rewrite tap_check, IH. reflexivity. }
  destruct (kinds_eqb _ _ && _); [|reflexivity]. rewrite tap_field. reflexivity.
Qed.

Lemma take_shift : forall f (l : list node), (forall n, f (tn n) = f n) -> take_while f (map tn l) = map tn (take_while f l).
Proof. intros f l H. induction l as [|x l IH]; [reflexivity|]. cbn. rewrite H. destruct (f x); [cbn; rewrite IH|]; reflexivity. Qed.
Lemma drop_shift : forall f (l : list node), (forall n, f (tn n) = f n) -> drop_while f (map tn l) = map tn (drop_while f l).
Proof. intros f l H. induction l as [|x l IH]; [reflexivity|]. cbn. rewrite H. destruct (f x); [exact IH|reflexivity]. Qed.

Definition tpo (x : option (list aparam * list oper)) := option_map (fun r : list aparam * list oper => (map tap (fst r), snd r)) x.

Lemma bparam_shift : forall inp b args sb ops q,
  eval_bparam inp (tb b) (map (option_map tn) args) sb ops q =
  option_map (fun r : aparam * list oper => (tap (fst r), snd r)) (eval_bparam inp b args sb ops q).
Proof.
  intros inp b args sb ops q. destruct q; cbn [eval_bparam tb b_seq b_bstart b_bend]; try reflexivity.
  - rewrite nth_error_map. destruct (nth_error args k); reflexivity.
  - cbn. rewrite take_shift; [reflexivity|]. intros n. rewrite tn_is_a. reflexivity.
  - cbn. rewrite drop_shift; [reflexivity|]. intros n. rewrite tn_is_a. reflexivity.
  - rewrite map_length, firstn_map. reflexivity.
  - rewrite map_length. destruct (Nat.even _); reflexivity.
  - destruct ops; reflexivity.
  - rewrite map_length. destruct ((1 <? _) && _); reflexivity.
Qed.

Lemma bparams_shift : forall inp b args sb l ops,
  eval_bparams inp (tb b) (map (option_map tn) args) sb ops l = tpo (eval_bparams inp b args sb ops l).
Proof.
  intros inp b args sb. induction l as [|q l IH]; intros ops; [reflexivity|]. cbn [eval_bparams]. rewrite bparam_shift.
  destruct (eval_bparam inp b args sb ops q) as [[x o1]|]; [|reflexivity]. cbn [option_map fst snd]. rewrite IH.
  destruct (eval_bparams inp b args sb o1 l) as [[xs o2]|]; reflexivity.
Qed.

(** two environments that differ in where the input starts *)
Record xrel (e e' : xenv) : Prop := {
  xr_inp : e_inp e' = e_inp e;
  xr_limit : e_limit e' = e_limit e;
  xr_pos : e_pos e' = e_pos e;
  xr_off : offset (e_off e') = offset (e_off e) + offset p;
  xr_position : forall i, x_position e' i = xmap tp (x_position e i) }.

Variables (e e' : xenv).
Hypothesis He : xrel e e'.

Lemma slot_shift : forall k a, get_slot k (ta a) = xmap (option_map tn) (get_slot k a).
Proof.
  intros k a. unfold get_slot. cbn [ta a_frames]. destruct (a_frames a) as [|f fs]; [reflexivity|]. cbn [map].
  rewrite nth_error_map. destruct (nth_error f k) as [[v|]|]; reflexivity.
Qed.
Lemma upd_shift : forall (X Y : Type) (g : X -> Y) l k x, upd (map g l) k (g x) = option_map (map g) (upd l k x).
Proof.
  intros X Y g. induction l as [|y l IH]; intros [|k] x; try reflexivity. cbn. rewrite IH. destruct (upd l k x); reflexivity.
Qed.
Lemma put_shift : forall k v a, put_slot k (option_map tn v) (ta a) = xmap ta (put_slot k v a).
Proof.
  intros k v a. unfold put_slot. cbn [ta a_frames]. destruct (a_frames a) as [|f fs]; [reflexivity|]. cbn [map].
  change (Some (option_map tn v)) with (option_map (option_map tn) (Some v)). rewrite upd_shift.
  destruct (upd f k (Some v)); reflexivity.
Qed.
Lemma arg_shift : forall x a, eval_arg x (ta a) = xmap (option_map tn) (eval_arg x a).
Proof. intros [k|] a; [apply slot_shift|reflexivity]. Qed.
Lemma args_shift : forall l a, eval_args l (ta a) = xmap (map (option_map tn)) (eval_args l a).
Proof.
  induction l as [|x l IH]; intros a; [reflexivity|]. cbn [eval_args]. rewrite arg_shift. apply xmap_bind. intros v _.
  rewrite IH. apply xmap_bind. intros vs _. reflexivity.
Qed.

Lemma nonempty_tn : forall (X Y : Type) (g : X -> Y) l, nonempty (map g l) = nonempty l.
Proof. intros X Y g [|]; reflexivity. Qed.

Lemma build_shift : forall c args a,
  do_build e' c (map (option_map tn) args) (ta a) = xmap (fun r => (tn (fst r), ta (snd r))) (do_build e c args a).
Proof.
  intros c args a. unfold do_build. cbn [ta a_prev a_sb a_ops a_fresh a_blocks]. destruct (a_prev a) as [b|]; [|reflexivity].
  cbn [option_map]. destruct (build_call c) as [ty bps]. rewrite (xr_inp _ _ He), bparams_shift.
  destruct (eval_bparams (e_inp e) b args (a_sb a) (a_ops a) bps) as [[ps ops]|]; [|reflexivity]. cbn [tpo option_map fst snd].
  cbn [tb b_kids b_rstart b_rend]. rewrite nonempty_tn. destruct (terminal ty && nonempty (b_kids b)); [reflexivity|].
  assert ((if terminal ty then [] else map tn (b_kids b)) = map tn (if terminal ty then [] else b_kids b)) as -> by (destruct (terminal ty); reflexivity).
  change (mkrange (tp (b_rstart b)) (tp (b_rend b))) with (tr (mkrange (b_rstart b) (b_rend b))). rewrite construct_shift.
  destruct (construct (a_fresh a) ty ps _ _) as [n|]; [|reflexivity]. cbn [option_map].
  destruct (a_blocks a) as [|q bs]; [reflexivity|]. unfold ta, tb. cbn. rewrite ?map_app. reflexivity.
Qed.

Lemma rhs_shift : forall r a,
  eval_rhs e' r (ta a) = xmap (fun r => (option_map tn (fst r), ta (snd r))) (eval_rhs e r a).
Proof.
  intros [x|c l] a; cbn [eval_rhs].
  - rewrite arg_shift. apply xmap_bind. reflexivity.
  - rewrite args_shift. apply xmap_bind. intros vs _. rewrite build_shift. apply xmap_bind. reflexivity.
Qed.

Lemma close_shift : forall i a,
  close_block e' i (ta a) = xmap (fun r : block * position * astate => (tb (fst (fst r)), tp (snd (fst r)), ta (snd r))) (close_block e i a).
Proof.
  intros i a. unfold close_block. rewrite (xr_position _ _ He). apply xmap_bind. intros ps _.
  cbn [ta a_blocks a_prev]. destruct (a_blocks a) as [|b bs]; [reflexivity|]. cbn [map tb b_bstart b_rstart].
  assert ((offset (tp (b_rstart b)) <=? offset (tp ps)) = (offset (b_rstart b) <=? offset ps)) as ->.
  { unfold translate. cbn [offset]. destruct (Nat.leb_spec (offset (b_rstart b)) (offset ps)), (Nat.leb_spec (offset (b_rstart b) + offset p) (offset ps + offset p)); (reflexivity || lia). }
  assert (match option_map tb (a_prev a) with None => true | Some q => negb (nonempty (b_kids q)) end =
          match a_prev a with None => true | Some q => negb (nonempty (b_kids q)) end) as ->.
  { destruct (a_prev a); [|reflexivity]. cbn. rewrite nonempty_tn. reflexivity. }
  destruct (_ && _); reflexivity.
Qed.

Lemma fill_shift : forall l, fill_contexts e' (map tx l) = xmap (map tx) (fill_contexts e l).
Proof.
  induction l as [|x l IH]; [reflexivity|]. cbn [map fill_contexts]. cbn [translate_error pe_ctx pe_pos pe_msg].
  destruct (pe_ctx x) eqn:E; [reflexivity|]. rewrite (xr_limit _ _ He), (xr_inp _ _ He), (xr_off _ _ He).
  assert (offset (tp (pe_pos x)) - (offset (e_off e) + offset p) = offset (pe_pos x) - offset (e_off e)) as ->
    by (unfold translate; cbn [offset]; lia).
  destruct (line_context _ _ 80); [|reflexivity]. rewrite IH. apply xmap_bind. reflexivity.
Qed.

Lemma stmt_shift : forall s a, exec_stmt e' s (ta a) = xmap ta (exec_stmt e s a).
Proof.
  induction s as [|x|x| |b| | |o|r|l r|x s IH]; intros a; cbn [exec_stmt].
  - unfold do_finished. cbn [ta a_errs]. rewrite <- map_rev, fill_shift. apply xmap_bind. intros es _.
    rewrite (xr_pos _ _ He). cbn. unfold ta. cbn. rewrite map_rev. reflexivity.
  - rewrite arg_shift. apply xmap_bind. reflexivity.
  - rewrite arg_shift. apply xmap_bind. intros [n|] _; [|reflexivity]. unfold do_seq_add. cbn [option_map ta a_blocks].
    destruct (a_blocks a) as [|q bs]; [reflexivity|]. unfold ta, tb. cbn. rewrite ?map_app. reflexivity.
  - reflexivity.
  - reflexivity.
  - cbn [ta a_prev]. destruct (a_prev a) as [b|]; [|reflexivity]. cbn. rewrite (xr_inp _ _ He). reflexivity.
  - reflexivity.
  - reflexivity.
  - rewrite rhs_shift. apply xmap_bind. reflexivity.
  - destruct l as [|k]; rewrite rhs_shift; apply xmap_bind; intros [v b] _; cbn [fst snd]; [reflexivity|apply put_shift].
  - rewrite arg_shift. apply xmap_bind. intros v _.
    assert (match option_map tn v with Some n => is_a n T_IDENTIFIER | None => false end =
            match v with Some n => is_a n T_IDENTIFIER | None => false end) as -> by (destruct v; [apply tn_is_a|reflexivity]).
    destruct (match v with Some n => _ | None => _ end); [reflexivity|apply IH].
Qed.
Lemma stmts_shift : forall l a, exec_stmts e' l (ta a) = xmap ta (exec_stmts e l a).
Proof. induction l as [|s l IH]; intros a; [reflexivity|]. cbn [exec_stmts]. rewrite stmt_shift. apply xmap_bind. intros b _. apply IH. Qed.

Lemma action_shift : forall t i a, exec_action e' t i (ta a) = xmap ta (exec_action e t i a).
Proof.
  intros t i a. destruct t as [n|n|k| | | | |l]; cbn [exec_action].
  - cbn. unfold ta, set_frames. cbn. do 2 f_equal. f_equal. clear. induction n as [|n IH]; [reflexivity|]. cbn. rewrite <- IH. reflexivity.
  - cbn. unfold ta, set_frames. cbn. do 2 f_equal. destruct (a_frames a); reflexivity.
  - cbn [ta a_ret]. apply put_shift.
  - unfold do_block_start. rewrite (xr_position _ _ He). apply xmap_bind. intros ps _. cbn [ta a_prev a_blocks].
    destruct (a_prev a) as [b|]; cbn; unfold ta; cbn; [rewrite map_app|]; reflexivity.
  - unfold do_block_end. rewrite close_shift. apply xmap_bind. reflexivity.
  - unfold do_block_replace. rewrite close_shift. apply xmap_bind. intros [[b ps] a1] _. reflexivity.
  - unfold do_block_merge. rewrite close_shift. apply xmap_bind. intros [[b ps] a1] _. cbn [fst snd tb b_kids ta a_blocks].
    destruct (b_kids b) as [|k ks]; [reflexivity|]. cbn [map]. destruct (a_blocks a1) as [|q bs]; [reflexivity|].
    unfold ta, tb. cbn. rewrite ?map_app. reflexivity.
  - apply stmts_shift.
Qed.
Lemma exec_shift : forall ts a, exec e' ts (ta a) = xmap ta (exec e ts a).
Proof. induction ts as [|[t i] ts IH]; intros a; [reflexivity|]. cbn [exec]. rewrite action_shift. apply xmap_bind. intros b _. apply IH. Qed.
End Act.

(** ** Ordinals *)
Lemma ordinals_shift : forall p o t n,
  set_ordinals (translate_node p 0 t) (n + o) = (translate_node p o (fst (set_ordinals t n)), snd (set_ordinals t n) + o).
Proof.
  intros p o t. induction t as [i ty r f ks k IH] using node_ind2. intros n. cbn [set_ordinals translate_node].
  match goal with |- context [?g (map (translate_node p 0) ks) (S (n + o))] => set (go := g) end.
  assert (K : forall ks, Forall (fun t => forall n, set_ordinals (translate_node p 0 t) (n + o) =
      (translate_node p o (fst (set_ordinals t n)), snd (set_ordinals t n) + o)) ks ->
    forall m, go (map (translate_node p 0) ks) (m + o) = (map (translate_node p o) (fst (go ks m)), snd (go ks m) + o)).
  { clear. induction 1 as [|t ks H _ IH]; intros m; [reflexivity|]. cbn [map]. cbn. rewrite H.
    destruct (set_ordinals t m) as [t' m1]. cbn [fst snd]. rewrite IH. destruct (go ks m1) as [ks' m2] eqn:E. reflexivity. }
  change (S (n + o)) with (S n + o). rewrite (K ks IH (S n)). destruct (go ks (S n)) as [ks' m]. reflexivity.
Qed.

Lemma ordinals_all_shift : forall p o ts n,
  set_ordinals_all (map (translate_node p 0) ts) (n + o) =
  (map (translate_node p o) (fst (set_ordinals_all ts n)), snd (set_ordinals_all ts n) + o).
Proof.
  induction ts as [|t ts IH]; intros n; [reflexivity|]. cbn [map set_ordinals_all]. rewrite ordinals_shift.
  destruct (set_ordinals t n) as [t' m]. cbn [fst snd]. rewrite IH. destruct (set_ordinals_all ts m). reflexivity.
Qed.

Lemma segment_shift : forall p o n r es ts d eof,
  make_segment (n + o) (translate_range p r) (map (translate_error p) es) (map (translate_node p 0) ts)
    (option_map (translate_node p 0) d) eof = translate_segment p o (make_segment n r es ts d eof).
Proof.
  intros. unfold make_segment. rewrite ordinals_all_shift. destruct (set_ordinals_all ts n) as [ts' m]. cbn [fst snd].
  unfold translate_segment. cbn. f_equal; [lia|]. destruct d as [[]|]; reflexivity.
Qed.

(** ** Rounds *)
Lemma translate_zero : forall p, translate p position_zero = p.
Proof. intros []. reflexivity. Qed.

Record yrel (p : position) (y y' : carry) : Prop := {
  yr_off : y_off y' = translate p (y_off y);
  yr_good : good (y_off y);
  yr_op : y_op y' = y_op y;
  yr_et : erel p (y_et y) (y_et y');
  yr_ret : y_ret y' = option_map (translate_node p 0) (y_ret y);
  yr_sb : y_sb y' = y_sb y;
  yr_consumed : y_consumed y' = y_consumed y;
  yr_fresh : y_fresh y' = y_fresh y }.

Definition prel (p : position) (x y : pround) : Prop :=
  match x, y with
  | RdOk q lines a u, RdOk q' lines' a' u' => q' = q /\ lines' = lines /\ a' = ta p a /\ urel p u u'
  | RdFail, RdFail | RdAssert, RdAssert | RdInvalid, RdInvalid | RdUninit, RdUninit | RdFuel, RdFuel => True
  | _, _ => False
  end.

Lemma finish_shift : forall p o col la inp y y' m m', yrel p y y' -> rrel (urel p) m m' ->
  prel p (finish_one (mkcf position_zero 0 col) la inp y m) (finish_one (mkcf p o col) la inp y' m').
Proof.
  intros p o col la inp y y' m m' HY HM. destruct m as [s|s| |], m' as [t|t| |]; try contradiction; cbn [finish_one]; try exact I.
  destruct HM as [M1 [M2 [M3 M4 M5 M6]]]. cbn [cf_position]. rewrite M1, M2, M3, M4.
  assert (HX : xrel p (mkxe inp (la inp (pos s)) (y_off y) (c_lines (user s)) (pos s))
                      (mkxe inp (la inp (pos s)) (y_off y') (c_lines (user s)) (pos s))).
  { split; try reflexivity; cbn; rewrite (yr_off _ _ _ HY); [reflexivity|]. intros i. unfold x_position. cbn [e_off e_lines].
    rewrite input_translate by apply (yr_good _ _ _ HY). destruct (input_position _ _ _); reflexivity. }
  match goal with |- prel p (match exec ?e ?ts ?a with _ => _ end) (match exec ?e' ?ts ?a' with _ => _ end) =>
    assert (a' = ta p a) as ->; [|rewrite (exec_shift p e e' HX ts a); destruct (exec e ts a) as [b| | |]] end; try exact I.
  - unfold ta. cbn. rewrite (yr_ret _ _ _ HY), (yr_sb _ _ _ HY), (yr_consumed _ _ _ HY), (yr_fresh _ _ _ HY), (er_errs _ _ _ M6).
    unfold tb. cbn. rewrite translate_zero. reflexivity.
  - cbn [xmap]. cbn [ta a_blocks a_prev a_ops]. destruct (a_blocks b) as [|k [|k2 ks]]; try exact I. cbn [map].
    cbn [tb b_top b_seq]. rewrite nonempty_tn. destruct (a_prev b); cbn [option_map].
    + rewrite !andb_false_r. exact I.
    + match goal with |- prel p (if ?x then _ else _) _ => destruct x end; [|exact I]. cbn. split; [reflexivity|]. split; [reflexivity|].
      split; [reflexivity|]. split; auto.
Qed.

Lemma one_shift : forall p o col la r inp y y', yrel p y y' ->
  prel p (parse_one (mkcf position_zero 0 col) la r inp y) (parse_one (mkcf p o col) la r inp y').
Proof.
  intros p o col la r inp y y' HY. rewrite !parse_one_eq. apply finish_shift; [exact HY|]. cbn [cf_color].
  unfold crun. generalize (cfuel inp). intros k. rewrite (yr_off _ _ _ HY).
  apply run_rel.
  - intros q i c u v. apply urel_step. apply (yr_good _ _ _ HY).
  - split; [reflexivity|]. split; [reflexivity|]. split; cbn; try reflexivity; apply HY.
Qed.

Lemma loop_shift : forall k p o col la cb fl inp n y y' done last, yrel p y y' ->
  ploop k (mkcf p o col) la cb fl inp (n + o) y' (map (translate_segment p o) done) (option_map (translate p) last) =
  translate_presult p o (ploop k (mkcf position_zero 0 col) la (fun l => cb (map (translate_segment p o) l)) fl inp n y done last).
Proof.
  induction k as [|k IH]; intros p o col la cb fl inp n y y' done last HY; [reflexivity|]. cbn [ploop].
  pose proof (one_shift p o col la (start_rule fl) inp y y' HY) as K.
  destruct (parse_one (mkcf position_zero 0 col) la (start_rule fl) inp y) as [q lines a u| | | | |],
           (parse_one (mkcf p o col) la (start_rule fl) inp y') as [q' lines' a' u'| | | | |]; try contradiction; try reflexivity.
  destruct K as [-> [-> [-> HU]]]. cbn [ta a_consumed a_result a_errs a_eof a_blocks].
  rewrite nonempty_tn. destruct (a_consumed a =? 0).
  { destruct (a_result a); cbn [option_map]; [reflexivity|]. destruct (_ && _); reflexivity. }
  rewrite (yr_off _ _ _ HY), input_translate by apply (yr_good _ _ _ HY).
  destruct (input_position (y_off y) lines (a_consumed a)) as [en|] eqn:EP; [|reflexivity]. cbn [option_map].
  assert (match map (tb p) (a_blocks a) with b :: _ => b_kids b | [] => [] end =
          map (translate_node p 0) (match a_blocks a with b :: _ => b_kids b | [] => [] end)) as -> by (destruct (a_blocks a); reflexivity).
  change (mkrange (translate p (y_off y)) (translate p en)) with (translate_range p (mkrange (y_off y) en)).
  rewrite segment_shift.
  set (seg := make_segment n (mkrange (y_off y) en) (a_errs a) _ (a_result a) (a_eof a)).
  assert (map (translate_segment p o) done ++ [translate_segment p o seg] = map (translate_segment p o) (done ++ [seg])) as ->
    by (rewrite map_app; reflexivity).
  destruct (0 <? cb (map (translate_segment p o) (done ++ [seg])))%Z; [reflexivity|].
  destruct (cb (map (translate_segment p o) (done ++ [seg])) <? 0)%Z; [reflexivity|].
  destruct (a_eof a || pf_single fl); [reflexivity|].
  change (s_nnodes (translate_segment p o seg)) with (s_nnodes seg).
  replace (n + o + s_nnodes seg) with (n + s_nnodes seg + o) by lia.
  change (Some (translate p en)) with (option_map (translate p) (Some en)). apply IH.
  split; cbn; try reflexivity.
  - eapply input_good; [|exact EP]. apply HY.
  - apply HU.
  - destruct HU as [_ _ _ [E1 E2 E3 E4 E5]]. split; cbn; auto; try (intros C; contradiction C; reflexivity).
    + destruct E5 as [E5|[E5 [E6 _]]]; auto.
Qed.

Lemma each_shift : forall p o col la cb fl inp,
  parse_each (mkcf p o col) la cb fl inp =
  translate_presult p o (parse_each (mkcf position_zero 0 col) la (fun l => cb (map (translate_segment p o) l)) fl inp).
Proof.
  intros. rewrite !parse_each_eq. cbn [cf_ordinal].
  refine (loop_shift _ p o col la cb fl inp 0 (carry0 (mkcf position_zero 0 col)) (carry0 (mkcf p o col)) [] None _).
  split; try reflexivity.
  - cbn. rewrite translate_zero. reflexivity.
  - split; cbn; lia.
  - apply erel_init.
Qed.

Lemma merge_shift : forall p o segs r,
  fold_left merge_segment (map (translate_segment p o) segs) (translate_result p o r) =
  translate_result p o (fold_left merge_segment segs r).
Proof.
  induction segs as [|s segs IH]; intros r; [reflexivity|]. cbn [map fold_left]. rewrite <- IH. f_equal.
  unfold merge_segment, translate_result. cbn. rewrite !map_app, nonempty_tn. reflexivity.
Qed.

Lemma all_shift : forall p o col la fl inp,
  parse_all (mkcf p o col) la fl inp = translate_all p o (parse_all (mkcf position_zero 0 col) la fl inp).
Proof.
  intros. unfold parse_all. rewrite each_shift. destruct (parse_each (mkcf position_zero 0 col) la _ fl inp) as [ret segs last| | | | |]; try reflexivity.
  destruct ret; try reflexivity. cbn. rewrite <- merge_shift. reflexivity.
Qed.
