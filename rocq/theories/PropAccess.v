(** * The accessors of AST nodes (C49)

    Specification: AccessSpec.v ([doc_names], [doc_access]: what cypher-parser.h
    documents; [promised]).  Model: AccessModel.v. *)
From Coq Require Import List Bool Arith ZArith Ascii String Lia Permutation.
From Verif Require Import Peg QuickModel QuickSpec ErrModel CypherSyntax CypherGrammar CypherMatch AstTypes AstModel NodeFacts
  CypherBuild CypherExec CypherParse CypherSpec CypherLoop AstSpec AstProofs SafeSpec SafeProofs SafeNodes
  TraceSpec TraceProofs PropTrace LexSpec LexProofs PropLex PropCypher PropAst PropSafe
  AstSpec AccessModel AccessSpec AccessProofs.
Import ListNotations.
Opaque parse_one cfuel.

(** ** What was passed to the constructor is what the accessors return *)
(** For every constructor, every accessor that applies to the node it makes
    and every index: the accessor returns, and returns the argument (the length
    of the array, the element of the array, or null beyond its end) that the
    documentation says. *)
Theorem accessor_returns_argument : forall a id t ps kids rng n i,
  construct id t ps kids rng = Some n -> descends t (doc_type a) -> ~ of_path a ->
  exists r, access a n i = ARet r /\ promised t ps (snd (doc_access a)) i r.
Proof. exact accessor_ok. Qed.
Print Assumptions accessor_returns_argument.

(** A path has the elements of the path it is made of, if it is named or a
    shortest path, however deep. *)
Theorem path_accessors_return_elements : forall x,
  Forall built (preorder x) -> NoDup (map nid (preorder x)) -> descends (nty x) T_PATTERN_PATH ->
  exists l, path_elements x l /\
    (forall i, access A_pattern_path_nelements x i = ARet (RNum (List.length l))) /\
    (forall i, access A_pattern_path_get_element x i = ARet (RNode (nth_error l i))) /\
    (forall k, In k l -> exists y, In y (forest (nkids x)) /\ nid y = k).
Proof. exact path_accessors. Qed.
Print Assumptions path_accessors_return_elements.

(** An accessor called with a node of another type fails its assertion; it never
    reads a structure that is not there. *)
Theorem accessor_refuses_other_types : forall a n i,
  nty n <> T_COMMENT -> ~ descends (nty n) (doc_type a) -> access a n i = AAbort.
Proof. exact wrong_type. Qed.
Print Assumptions accessor_refuses_other_types.

(** ** Maps *)
Lemma in_pairs_interleave : forall ks vs, List.length ks = List.length vs -> in_pairs (interleave ks vs) = combine ks vs.
Proof.
  induction ks as [|k ks IH]; intros [|v vs] H; try discriminate H; [reflexivity|]. cbn in *. rewrite IH by lia. reflexivity.
Qed.
Lemma interleave_pairs : forall ks vs, List.length ks = List.length vs ->
  pairs_a (interleave ks vs) T_PROP_NAME T_EXPRESSION = all_a ks T_PROP_NAME && all_a vs T_EXPRESSION.
Proof.
  induction ks as [|k ks IH]; intros [|v vs] H; try discriminate H; [reflexivity|]. cbn in *. rewrite IH by lia. unfold all_a. cbn.
  destruct (is_a k T_PROP_NAME), (is_a v T_EXPRESSION), (forallb _ ks); reflexivity.
Qed.

Lemma map_is_pair_map : forall id ks vs kids rng, List.length ks = List.length vs ->
  construct_map id ks vs kids rng = construct id T_MAP [PL (interleave ks vs)] kids rng.
Proof.
  intros id ks vs kids rng H. unfold construct_map, construct. cbn. rewrite interleave_pairs by exact H.
  rewrite H, Nat.eqb_refl, andb_true_r. reflexivity.
Qed.

Lemma nth_combine : forall (ks vs : list node) i, List.length ks = List.length vs ->
  option_map (fun q => nid (fst q)) (nth_error (combine ks vs) i) = option_map nid (nth_error ks i) /\
  option_map (fun q => nid (snd q)) (nth_error (combine ks vs) i) = option_map nid (nth_error vs i).
Proof.
  induction ks as [|k ks IH]; intros [|v vs] [|i] H; try discriminate H; cbn in *; auto.
Qed.

(** cypher_ast_map accepts exactly lists of property names and expressions of
    the same length, and the i-th key and value are the i-th of the two lists. *)
Theorem map_accessors_return_entries : forall id ks vs kids rng,
  List.length ks = List.length vs ->
  ((forall k, In k ks -> descends (nty k) T_PROP_NAME) /\ (forall v, In v vs -> descends (nty v) T_EXPRESSION) <->
   exists n, construct_map id ks vs kids rng = Some n) /\
  forall n i, construct_map id ks vs kids rng = Some n ->
    access A_map_nentries n i = ARet (RNum (List.length ks)) /\
    access A_map_get_key n i = ARet (RNode (option_map nid (nth_error ks i))) /\
    access A_map_get_value n i = ARet (RNode (option_map nid (nth_error vs i))).
Proof.
  intros id ks vs kids rng H. split.
  - assert (K : forall l t, t <> T_COMMENT -> (all_a l t = true <-> forall x, In x l -> descends (nty x) t)).
    { intros l t Ht. unfold all_a. rewrite forallb_forall. split; intros L x Hx; specialize (L x Hx).
      - apply is_a_descends, L.
      - unfold is_a. rewrite (instanceof_complete _ _ Ht L). reflexivity. }
    unfold construct_map. rewrite H, Nat.eqb_refl. cbn. rewrite <- (K ks T_PROP_NAME), <- (K vs T_EXPRESSION) by discriminate.
    destruct (all_a ks T_PROP_NAME), (all_a vs T_EXPRESSION); cbn; split; try (intros [H1 H2]; discriminate); eauto;
      intros [n Hn]; discriminate Hn.
  - intros n i C. rewrite map_is_pair_map in C by exact H.
    assert (D : descends T_MAP T_MAP) by (apply instanceof_sound; reflexivity).
    destruct (nth_combine ks vs i H) as [N1 N2].
    repeat split.
    + destruct (accessor_ok A_map_nentries id T_MAP _ kids rng n i C D) as (r & -> & P); [intros [E|E]; discriminate E|].
      cbn in P. rewrite P, in_pairs_interleave, combine_length, H, Nat.min_id by exact H. reflexivity.
    + destruct (accessor_ok A_map_get_key id T_MAP _ kids rng n i C D) as (r & -> & P); [intros [E|E]; discriminate E|].
      cbn in P. rewrite P, in_pairs_interleave by exact H. rewrite N1. reflexivity.
    + destruct (accessor_ok A_map_get_value id T_MAP _ kids rng n i C D) as (r & -> & P); [intros [E|E]; discriminate E|].
      cbn in P. rewrite P, in_pairs_interleave by exact H. rewrite N2. reflexivity.
Qed.
Print Assumptions map_accessors_return_entries.

(** ** Nodes of a parse *)
Lemma documented_built : forall x, as_documented x -> built x.
Proof. intros x (ps & ds & H1 & H2 & H3 & H4 & _). exists ps. auto. Qed.

Lemma preorder_trans : forall y x, In x (preorder y) -> incl (preorder x) (preorder y).
Proof.
  apply (node_ind2 (fun y => forall x, In x (preorder y) -> incl (preorder x) (preorder y))).
  intros id t r f ks od IH x Hx. rewrite preorder_eq in Hx |- *. destruct Hx as [<-|Hx].
  - rewrite preorder_eq. apply incl_refl.
  - apply in_flat_map in Hx. destruct Hx as (k & K1 & K2). rewrite Forall_forall in IH.
    intros z Hz. right. apply in_flat_map. exists k. split; [exact K1|]. exact (IH k K1 x K2 z Hz).
Qed.

Lemma preorder_nodup : forall y, NoDup (map nid (preorder y)) -> forall x, In x (preorder y) -> NoDup (map nid (preorder x)).
Proof.
  apply (node_ind2 (fun y => NoDup (map nid (preorder y)) -> forall x, In x (preorder y) -> NoDup (map nid (preorder x)))).
  intros id t r f ks od IH Hn x Hx. rewrite preorder_eq in Hx. destruct Hx as [<-|Hx]; [exact Hn|].
  rewrite preorder_eq in Hn. cbn [map] in Hn. inversion Hn as [|? ? _ Hn']. subst. apply NoDup_kids in Hn'. destruct Hn' as [_ Hn'].
  apply in_flat_map in Hx. destruct Hx as (k & K1 & K2). rewrite Forall_forall in IH, Hn'. exact (IH k K1 (Hn' k K1) x K2).
Qed.

Lemma nodup_flat : forall (A B : Type) (f : B -> list A) l x, NoDup (flat_map f l) -> In x l -> NoDup (f x).
Proof.
  intros A B f l x. induction l as [|y l IH]; intros H Hi; [destruct Hi|]. destruct Hi as [->|Hx]; cbn in H.
  - apply NoDup_app_split in H. apply H.
  - apply IH; [|exact Hx]. apply NoDup_app_split in H. apply H.
Qed.

Lemma flat_map_map : forall (A B C : Type) (g : B -> C) (f : A -> list B) l, map g (flat_map f l) = flat_map (fun x => map g (f x)) l.
Proof. intros A B C g f l. induction l; cbn; [reflexivity|]. rewrite map_app, IHl. reflexivity. Qed.

Lemma parsed_tree : forall cf la cb fl inp ret segs last seg x,
  parse_each cf la cb fl inp = PRet ret segs last -> In seg segs -> In x (forest (s_roots seg)) ->
  Forall built (preorder x) /\ NoDup (map nid (preorder x)).
Proof.
  intros cf la cb fl inp ret segs last seg x H Hs Hx. apply parse_each_documented in H. destruct H as [H1 H2].
  rewrite Forall_forall in H1. destruct (H1 seg Hs) as [K _]. unfold forest in Hx. apply in_flat_map in Hx. destruct Hx as (y & Y1 & Y2).
  split.
  - rewrite Forall_forall in K |- *. intros z Hz. apply documented_built, K, in_flat_map. exists y. split; [exact Y1|].
    exact (preorder_trans y x Y2 z Hz).
  - apply (preorder_nodup y); [|exact Y2]. rewrite flat_map_map in H2. apply (nodup_flat _ _ _ _ seg) in H2; [|exact Hs].
    unfold forest in H2. rewrite flat_map_map in H2. exact (nodup_flat _ _ _ _ y H2 Y1).
Qed.

(** Every accessor of the type of a node of a parse, with any index, returns
    without failing an assertion or reading memory it should not; a node that it
    returns is a descendant of the node. *)
Theorem parsed_accessors_return : forall cf la cb fl inp ret segs last seg x a i,
  parse_each cf la cb fl inp = PRet ret segs last -> In seg segs -> In x (forest (s_roots seg)) ->
  descends (nty x) (doc_type a) ->
  exists r, access a x i = ARet r /\
    forall k, r = RNode (Some k) -> exists y, In y (forest (nkids x)) /\ nid y = k.
Proof.
  intros cf la cb fl inp ret segs last seg x a i H Hs Hx Hd. destruct (parsed_tree _ _ _ _ _ _ _ _ _ _ H Hs Hx) as [K1 K2].
  apply tree_accessor; assumption.
Qed.
Print Assumptions parsed_accessors_return.

(** ** Texts *)
Definition NULfree (s : bytes) : Prop := ~ In "000"%char s.

Lemma c_string_free : forall s, NULfree s -> c_string s = s.
Proof.
  induction s as [|c s IH]; intros H; [reflexivity|]. cbn. destruct (Ascii.eqb_spec c "000"%char) as [->|E].
  - exfalso. apply H. left. reflexivity.
  - rewrite IH; [reflexivity|]. intros K. apply H. right. exact K.
Qed.

Lemma free_app : forall a b, NULfree (a ++ b) <-> NULfree a /\ NULfree b.
Proof. intros a b. unfold NULfree. rewrite in_app_iff. tauto. Qed.
Lemma free_cons : forall c b, NULfree (c :: b) <-> c <> "000"%char /\ NULfree b.
Proof. intros a b. unfold NULfree. cbn. tauto. Qed.

Lemma slice_free : forall s p q, NULfree s -> NULfree (slice s p q).
Proof.
  intros s p q H K. apply H. unfold slice in K.
  rewrite <- (firstn_skipn p s). apply in_app_iff. right. rewrite <- (firstn_skipn (q - p) (skipn p s)). apply in_app_iff. left. exact K.
Qed.

Lemma escape_free : forall c x, escape c = Some x -> x <> "000"%char.
Proof. intros [[] [] [] [] [] [] [] []] x H; cbn in H; try discriminate H; injection H as <-; discriminate. Qed.

Lemma decode_free : forall q u t, decode q u = Some t -> NULfree u -> NULfree t.
Proof.
  intros q u. remember (List.length u) as n eqn:En. revert u En. induction n as [n IH] using lt_wf_ind. intros u -> t H F.
  destruct u as [|c v]; [injection H as <-; exact F|]. cbn [decode] in H. apply free_cons in F. destruct F as [F1 F2].
  destruct (Ascii.eqb c "\").
  - destruct v as [|d w]; [discriminate H|]. pose proof F2 as F3. apply free_cons in F3. destruct F3 as [_ F3].
    destruct (escape d) as [x|] eqn:Ex.
    + destruct (decode q w) as [t'|] eqn:E; [|discriminate H]. injection H as <-. apply free_cons. split; [eapply escape_free, Ex|].
      eapply (IH (List.length w)); [cbn; lia|reflexivity|exact E|exact F3].
    + destruct (decode q (d :: w)) as [t'|] eqn:E; [|discriminate H]. injection H as <-. apply free_cons. split; [exact F1|].
      eapply (IH (List.length (d :: w))); [cbn; lia|reflexivity|exact E|exact F2].
  - destruct (Ascii.eqb c q); [discriminate H|]. destruct (decode q v) as [t'|] eqn:E; [|discriminate H]. injection H as <-.
    apply free_cons. split; [exact F1|]. eapply (IH (List.length v)); [cbn; lia|reflexivity|exact E|exact F2].
Qed.

Lemma quoted_free : forall u t, quoted_text u t -> NULfree u -> NULfree t.
Proof.
  intros u t (q & b & _ & -> & D) F. apply free_cons in F. destruct F as [_ F]. apply free_app in F. destruct F as [F _].
  eapply decode_free; eauto.
Qed.
Lemma word_free : forall u t, word_text u t -> NULfree u -> NULfree t.
Proof.
  intros u t H. induction H as [|c u t _ _ IH|c x u t E _ IH|u t _ IH|v u s t Q _ IH]; intros F.
  - exact F.
  - apply free_cons in F. apply free_cons. tauto.
  - apply free_cons in F. destruct F as [_ F]. apply free_cons in F. apply free_cons. split; [eapply escape_free, E|tauto].
  - apply free_cons in F. destruct F as [_ F]. apply free_cons in F. apply free_cons. tauto.
  - apply free_app in F. apply free_app. split; [eapply quoted_free; [exact Q|tauto]|tauto].
Qed.
Lemma name_free : forall u t, name_text u t -> NULfree u -> NULfree t.
Proof.
  intros u t [[-> _]|[-> _]] F; [exact F|]. apply free_cons in F. destruct F as [_ F]. apply free_app in F. tauto.
Qed.
Lemma colon_free : forall u t, colon_text u t -> NULfree u -> NULfree t.
Proof.
  intros u t (w & v & -> & _ & N) F. apply free_cons in F. destruct F as [_ F]. apply free_app in F. eapply name_free; [exact N|tauto].
Qed.
Lemma param_free : forall u t, param_text u t -> NULfree u -> NULfree t.
Proof.
  intros u t (w & v & _ & N & U) F. assert (Fv : NULfree v).
  { destruct U as [-> |(w2 & _ & ->)]; apply free_cons in F; destruct F as [_ F]; apply free_app in F; destruct F as [_ F]; [exact F|].
    apply free_app in F. tauto. }
  destruct N as [N|[-> _]]; [eapply name_free; eauto|exact Fv].
Qed.
Lemma dotted_free : forall u t, dotted_text u t -> NULfree u -> NULfree t.
Proof.
  intros u t H. induction H as [u t N|u t w1 w2 v s N _ _ _ IH]; intros F; [eapply name_free; eauto|].
  apply free_app in F. destruct F as [F1 F]. apply free_app in F. destruct F as [_ F]. apply free_app in F. destruct F as [_ F].
  apply free_app in F. destruct F as [_ F]. apply free_app. split; [eapply name_free; eauto|]. cbn.
  apply free_cons. split; [discriminate|]. auto.
Qed.
Lemma trimmed_free : forall u t, trimmed u t -> NULfree u -> NULfree t.
Proof. intros u t (a & b & -> & _) F. apply free_app in F. destruct F as [_ F]. apply free_app in F. tauto. Qed.

Lemma leaves_free : forall inp r p q l ty t p' e, NULfree inp -> leaves_of inp (r, p, q) l -> In (ty, t, p', e) l -> NULfree t.
Proof.
  intros inp r p q l ty t p' e F H Hi.
  destruct r; cbn [leaves_of] in H; try (subst l; contradiction Hi);
    try (destruct (one_leaf_in _ _ _ _ _ _ _ _ _ _ H Hi) as (_ & _ & _ & K & _);
         pose proof (slice_free inp p e F) as Fs;
         first [ eapply quoted_free; [exact K|exact Fs] | eapply word_free; [exact K|exact Fs]
               | eapply colon_free; [exact K|exact Fs] | eapply name_free; [exact K|exact Fs]
               | eapply param_free; [exact K|exact Fs] | eapply dotted_free; [exact K|exact Fs]
               | destruct K as [<- _]; exact Fs ]).
  destruct H as [-> |(t0 & _ & T & ->)]; [contradiction Hi|]. destruct Hi as [E|[]]. injection E as <- <- <- <-.
  eapply trimmed_free; [exact T|apply slice_free, F].
Qed.

Lemma parsed_text_free : forall cf la cb fl inp ret segs last seg n,
  parse_each cf la cb fl inp = PRet ret segs last -> In seg segs -> In n (forest (s_roots seg)) ->
  NULfree inp -> is_leaf n = true \/ is_text_node n = true -> NULfree (text_of n).
Proof.
  intros cf la cb fl inp ret segs last seg n H Hs Hn F [L|L].
  - destruct (parse_each_leaves _ _ _ _ _ _ _ _ _ H Hs) as (uses & ls & _ & U1 & U2).
    destruct (leaf_found _ _ _ _ U2 Hn L) as (p & e & I1 & _).
    destruct (leaf_used _ _ _ _ U1 I1) as (r & p' & q & l & _ & J2 & J3). eapply leaves_free; eauto.
  - destruct (comment_nodes_hold_comments _ _ _ _ _ _ _ _ _ _ H Hs Hn) as [C1 C2]. unfold is_text_node in L.
    destruct (nty n) eqn:T; try discriminate L.
    + destruct (C1 eq_refl) as (p & q & _ & (_ & [[E _]|[E|[E _]]]) & _); pose proof (slice_free inp p q F) as Fs; rewrite E in Fs;
        apply free_app in Fs; destruct Fs as [_ Fs]; try exact Fs; apply free_app in Fs; tauto.
    + destruct (C2 eq_refl) as (p & q & _ & (E & _) & _). pose proof (slice_free inp p q F) as Fs. rewrite E in Fs.
      apply free_app in Fs; destruct Fs as [_ Fs]; apply free_app in Fs; tauto.
    + destruct (error_nodes_hold_input _ _ _ _ _ _ _ _ _ _ H Hs Hn T) as (p & q & _ & -> & _). apply slice_free, F.
Qed.

Lemma str_single : forall t ks, ctor_kinds t = Some ks -> In KStr ks -> ks = [KStr] /\
  (leaf_type t = true \/ match t with T_LINE_COMMENT | T_BLOCK_COMMENT | T_ERROR => true | _ => false end = true).
Proof.
  intros t ks H Hi. destruct t; cbn in H; try discriminate H; injection H as <-; cbn in Hi;
    repeat (destruct Hi as [Hi|Hi]; [try discriminate Hi|]); try contradiction Hi; auto.
Qed.

Lemma string_accessor : forall x a i s, Forall built (preorder x) -> NoDup (map nid (preorder x)) ->
  access a x i = ARet (RStr s) -> nty x <> T_COMMENT -> s = c_string (text_of x) /\ (is_leaf x = true \/ is_text_node x = true).
Proof.
  intros x a i s Hb Hn H Ht.
  assert (Hd : descends (nty x) (doc_type a)).
  { unfold access, require_type in H. rewrite acc_type in H. apply instanceof_sound.
    destruct (instanceof_ty (nty x) (doc_type a)) as [[|]|]; [reflexivity|discriminate H|discriminate H]. }
  destruct (of_path_dec a) as [Ha|Ha].
  - assert (Hd' : descends (nty x) T_PATTERN_PATH) by (destruct Ha as [-> | ->]; exact Hd).
    destruct (path_accessors x Hb Hn Hd') as (l & L1 & L2 & L3 & L4).
    destruct Ha as [-> | ->]; [rewrite L2 in H|rewrite L3 in H]; discriminate H.
  - destruct x as [id t r f ks od]. rewrite preorder_eq in Hb. inversion Hb as [|? ? B _]. subst.
    destruct B as (ps & C & _). cbn [nid nty nrng nflds nkids] in *.
    destruct (accessor_ok a id t ps ks r _ i C Hd Ha) as (v & V1 & V2). rewrite access_ord, V1 in H. injection H as ->.
    assert (K : exists s0, In (PS s0) ps /\ s = c_string s0).
    { destruct (snd (doc_access a)) as [p|p|p|p|p|p| |]; cbn in V2; try tauto;
        (destruct (arg_named (doc_names t) ps p) as [[o|l|b|d|o|l|s0]|] eqn:E; try discriminate V2; try tauto); apply arg_named_in in E.
      injection V2 as ->. eauto. }
    destruct K as (s0 & K1 & ->). apply construct_inv in C. destruct C as (kk & C1 & C2 & _ & C4). injection C4 as Ef.
    assert (K2 : In KStr kk) by (rewrite <- C2; apply in_map_iff; exists (PS s0); auto).
    destruct (str_single t kk C1 K2) as [-> K3]. split; [|exact K3].
    destruct ps as [|y [|z ps]]; try discriminate C2. destruct K1 as [->|[]]. unfold text_of. cbn. rewrite Ef. reflexivity.
Qed.

(** If the input has no NUL byte, an accessor that returns a string returns the
    whole text of the node (C35, C43, C45 and C48 say what that is). *)
Theorem parsed_texts_whole_partial : forall cf la cb fl inp ret segs last seg x a i s,
  parse_each cf la cb fl inp = PRet ret segs last -> In seg segs -> In x (forest (s_roots seg)) ->
  ~ In "000"%char inp -> access a x i = ARet (RStr s) -> s = text_of x.
Proof.
  intros cf la cb fl inp ret segs last seg x a i s H Hs Hx F Ha. destruct (parsed_tree _ _ _ _ _ _ _ _ _ _ H Hs Hx) as [K1 K2].
  assert (Hc : nty x <> T_COMMENT).
  { intros E. destruct (preorder_self x) as [l Hl]. rewrite Hl in K1. inversion K1 as [|? ? B _]. subst. destruct B as (ps & C & _).
    apply construct_inv in C. destruct C as (kk & C & _). rewrite E in C. discriminate C. }
  destruct (string_accessor x a i s K1 K2 Ha Hc) as [-> L]. apply c_string_free. eapply parsed_text_free; eauto.
Qed.
Print Assumptions parsed_texts_whole_partial.

(** With a NUL byte in a string, the accessor's string ends before it. *)
Transparent parse_one cfuel.
Definition nul_program : bytes := B "RETURN 'a" ++ "000"%char :: B "b';".
Theorem parsed_texts_whole_refuted : exists inp ret segs last seg x a s,
  parse_each std_config whole never plain inp = PRet ret segs last /\ In seg segs /\ In x (forest (s_roots seg)) /\
  access a x 0 = ARet (RStr s) /\ s <> text_of x.
Proof.
  assert (K : forall t inp n l a, parsed_as t inp = n :: l ->
    (exists s, access a n 0 = ARet (RStr s) /\ s <> text_of n) ->
    exists inp ret segs last seg x a s,
      parse_each std_config whole never plain inp = PRet ret segs last /\ In seg segs /\ In x (forest (s_roots seg)) /\
      access a x 0 = ARet (RStr s) /\ s <> text_of x).
  { intros t inp n l a H (s & S1 & S2). destruct (parsed_as_in _ _ _ _ H) as (ret & segs & last & seg & H1 & H2 & H3).
    exists inp, ret, segs, last, seg, n, a, s. auto. }
  eapply (K T_STRING nul_program _ _ A_string_get_value); [vm_compute; reflexivity|].
  eexists. split; [vm_compute; reflexivity|]. vm_compute. discriminate.
Qed.
Print Assumptions parsed_texts_whole_refuted.

(** ** Examples *)
(** what the accessors [l] return for the first node of type [t] of a parse of [inp], with indexes *)
Definition accessed (t : asttype) (inp : bytes) (l : list (accessor * nat)) : list aout :=
  match parsed_as t inp with
  | n :: _ => map (fun ai => access (fst ai) n (snd ai)) l
  | [] => []
  end.

(** the hypotheses of the theorems about parses are met; [RNode] holds addresses *)
Example rel_pattern_accessed :
  accessed T_REL_PATTERN (B "MATCH ()<-[r:R|S {p:1}]-() RETURN r;")
    [(A_rel_pattern_get_direction, 0); (A_rel_pattern_nreltypes, 0); (A_rel_pattern_get_varlength, 0);
     (A_rel_pattern_get_reltype, 2); (A_node_pattern_nlabels, 0)]
  = [ARet (RDir INBOUND); ARet (RNum 2); ARet (RNode None); ARet (RNode None); AAbort].
Proof. vm_compute. reflexivity. Qed.
Example named_shortest_path_accessed :
  accessed T_NAMED_PATH (B "MATCH p = allShortestPaths((a)-[*]->(b)) RETURN p;") [(A_pattern_path_nelements, 0); (A_pattern_path_get_element, 3)]
  = [ARet (RNum 3); ARet (RNode None)].
Proof. vm_compute. reflexivity. Qed.
Example map_accessed :
  accessed T_MAP (B "RETURN {a: 1, b: 'x'};") [(A_map_nentries, 0); (A_map_get_key, 2); (A_map_get_value, 2)]
  = [ARet (RNum 2); ARet (RNode None); ARet (RNode None)].
Proof. vm_compute. reflexivity. Qed.
Example string_accessed : accessed T_STRING (B "RETURN 'x\n';") [(A_string_get_value, 0)] = [ARet (RStr ["x"; "010"]%char)].
Proof. vm_compute. reflexivity. Qed.
(** an argument passed to a constructor by hand *)
Example delete_accessed :
  let x := Node 1 T_IDENTIFIER r0 [FStr (B "x")] [] 0 in
  let y := Node 2 T_IDENTIFIER r0 [FStr (B "y")] [] 0 in
  exists n, construct 3 T_DELETE [PB true; PL [x; y]] [x; y] r0 = Some n /\
    access A_delete_has_detach n 0 = ARet (RBool true) /\ access A_delete_nexpressions n 0 = ARet (RNum 2) /\
    access A_delete_get_expression n 1 = ARet (RNode (Some 2)) /\ access A_delete_get_expression n 2 = ARet (RNode None).
Proof. eexists. split; [reflexivity|]. vm_compute. auto. Qed.
