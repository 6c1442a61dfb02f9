(** * Properties of AST nodes: type hierarchy, constructors, cloning *)
From Coq Require Import List Bool Arith Lia Ascii String.
From Verif Require Import Peg QuickModel CypherSyntax ErrModel CypherInv AstTypes AstModel CypherExec CypherParse CypherSpec AstSpec AstProofs.
Import ListNotations.

(** ** The type hierarchy (C33) *)

(** [cypher_astnode_instanceof] is true exactly for the type of the node and the
    types above it.  Partial: not for the type COMMENT. *)
Theorem instanceof_hierarchy_partial : forall t u, t <> T_COMMENT -> u <> T_COMMENT ->
  exists b, instanceof_ty t u = Some b /\ (b = true <-> descends t u).
Proof. exact instanceof_ok. Qed.
Print Assumptions instanceof_hierarchy_partial.

Theorem instanceof_partial_order :
  (forall t, instanceof_ty t t = Some true) /\
  (forall t u w, instanceof_ty t u = Some true -> instanceof_ty u w = Some true -> instanceof_ty t w = Some true) /\
  (forall t u, instanceof_ty t u = Some true -> instanceof_ty u t = Some true -> t = u).
Proof.
  split; [exact instanceof_refl|]. split; [exact instanceof_trans|].
  intros t u H1 H2. apply descends_anti; apply instanceof_sound; assumption.
Qed.
Print Assumptions instanceof_partial_order.

(** The instances the documentation names.  Partial: not COMMENT. *)
Theorem documented_instances_partial : forall t u, In u (doc_also t) -> u <> T_COMMENT ->
  instanceof_ty t u = Some true.
Proof. exact doc_also_ok. Qed.
Print Assumptions documented_instances_partial.

(** Comments are documented to be instances of COMMENT and the hierarchy in the
    code says so, but the table of types has no entry for COMMENT. *)
Theorem comment_instanceof_refuted : exists t u,
  In u (doc_also t) /\ descends t u /\ instanceof_ty t u = Some false /\ typestr u = None.
Proof.
  exists T_LINE_COMMENT, T_COMMENT. split; [left; reflexivity|]. split; [|split; reflexivity].
  eapply d_parent; [left; reflexivity|constructor].
Qed.
Print Assumptions comment_instanceof_refuted.

(** The types that nodes can have are named, each by its own name. *)
Theorem node_type_names : 
  (forall t ps kids rng id n, construct id t ps kids rng = Some n ->
     exists s, typestr (nty n) = Some (Some s) /\ s <> []) /\
  (forall t u s, typestr t = Some (Some s) -> typestr u = Some (Some s) -> t = u).
Proof.
  split.
  - intros t ps kids rng id n H. apply construct_inv in H. destruct H as [ks [H [_ [_ ->]]]]. cbn [nty].
    destruct t; try discriminate H; (eexists; split; [reflexivity|discriminate]).
  - intros t u s H1 H2.
    assert (A : forallb (fun t => forallb (fun u => match typestr t, typestr u with
        | Some (Some a), Some (Some b) => negb (bytes_eqb a b) || type_eqb t u | _, _ => true end) all_types) all_types = true)
      by (vm_compute; reflexivity).
    pose proof (for_all_types _ (for_all_types _ A t) u) as B. cbn beta in B. rewrite H1, H2 in B.
    apply orb_true_iff in B. destruct B as [B | B]; [|apply type_eqb_eq, B].
    rewrite (proj2 (bytes_eqb_eq s s) eq_refl) in B. discriminate B.
Qed.
Print Assumptions node_type_names.

Example hierarchy_example : descends T_SHORTEST_PATH T_EXPRESSION /\ ~ descends T_MATCH T_EXPRESSION /\
  instanceof_ty T_FILTER T_EXPRESSION = Some true.
Proof.
  split; [|split; [|reflexivity]].
  - eapply d_parent; [left; reflexivity|constructor].
  - intros H. apply instanceof_complete in H; [|discriminate]. discriminate H.
Qed.

(** ** Constructors (C34) *)

(** A call of a constructor that returns a node was given, for each parameter,
    what the documentation demands, and each node passed by itself is one of the
    children.  The node holds what it was given.  Partial: nodes passed in
    arrays need not be children, and not at the places listed as
    [undocumented]. *)
Theorem constructor_checks_partial : forall id t ps kids rng n, construct id t ps kids rng = Some n ->
  (nid n = id /\ nty n = t /\ nrng n = rng /\ nkids n = kids /\ nflds n = map to_field ps) /\
  exists ds, doc_params t = Some ds /\ List.length ds = List.length ps /\
  forall k d p, nth_error ds k = Some d -> nth_error ps k = Some p -> ~ In (t, k) undocumented ->
  meets false kids d p.
Proof. intros id t ps kids rng n H. split; [eapply construct_stores, H|eapply construct_meets, H]. Qed.
Print Assumptions constructor_checks_partial.

Definition r0 : range := mkrange (mkpos 1 1 0) (mkpos 1 1 0).
Definition atom (id : nat) (t : asttype) : node := Node id t r0 [] [] 0.

Example constructor_example : exists n,
  construct 9 T_SLICE_OPERATOR [PN (Some (atom 1 T_IDENTIFIER)); PN None; PN (Some (atom 2 T_INTEGER))]
    [atom 1 T_IDENTIFIER; atom 3 T_LINE_COMMENT; atom 2 T_INTEGER] r0 = Some n /\
  construct 9 T_SLICE_OPERATOR [PN (Some (atom 1 T_IDENTIFIER)); PN None; PN (Some (atom 2 T_INTEGER))]
    [atom 1 T_IDENTIFIER; atom 3 T_LINE_COMMENT] r0 = None /\
  construct 9 T_SLICE_OPERATOR [PN (Some (atom 1 T_LABEL)); PN None; PN None] [atom 1 T_LABEL] r0 = None.
Proof. eexists. split; [reflexivity|]. split; reflexivity. Qed.

(** Nodes passed in an array need not be among the children. *)
Theorem constructor_membership_refuted : exists id t ps kids rng n d p k ds,
  construct id t ps kids rng = Some n /\ doc_params t = Some ds /\
  nth_error ds k = Some d /\ nth_error ps k = Some p /\
  meets false kids d p /\ ~ meets true kids d p.
Proof.
  exists 9, T_COLLECTION, [PL [atom 1 T_INTEGER]], [atom 2 T_INTEGER], r0. do 2 eexists. do 1 eexists. exists 0.
  do 1 eexists. split; [reflexivity|]. split; [reflexivity|]. split; [reflexivity|]. split; [reflexivity|].
  split; [cbn; discriminate|]. intros H. cbn in H. destruct (H (atom 1 T_INTEGER)) as [k [Hk E]]; auto.
  destruct Hk as [<- | []]. discriminate E.
Qed.
Print Assumptions constructor_membership_refuted.

Lemma not_descends : forall t u, u <> T_COMMENT -> instanceof_ty t u = Some false -> ~ descends t u.
Proof. intros t u Hu H D. apply instanceof_complete in D; congruence. Qed.

Lemma not_typed : forall ts x, forallb (fun t => negb (type_eqb t T_COMMENT) &&
    match instanceof_ty (nty x) t with Some b => negb b | None => true end) ts = true -> ~ typed ts x.
Proof.
  intros ts x H [t [Ht D]]. rewrite forallb_forall in H. specialize (H t Ht).
  apply andb_true_iff in H. destruct H as [H1 H2].
  apply instanceof_complete in D; [rewrite D in H2; discriminate|]. intros ->. discriminate H1.
Qed.

(** At each place listed as [undocumented] the constructor accepts an argument
    that is not as documented. *)
Theorem constructor_checks_refuted : forall t k, In (t, k) undocumented ->
  exists id ps kids rng n ds d p, construct id t ps kids rng = Some n /\ doc_params t = Some ds /\
  nth_error ds k = Some d /\ nth_error ps k = Some p /\ ~ meets false kids d p.
Proof.
  assert (One : forall kids ts x, ~ typed ts x -> ~ meets false kids (DOne ts) (PN (Some x))).
  { intros kids ts x H [y [E [H1 _]]]. injection E as <-. exact (H H1). }
  assert (Opt : forall kids ts x, ~ typed ts x -> ~ meets false kids (DOpt ts) (PN (Some x))).
  { intros kids ts x H H1. apply H. apply (H1 x). reflexivity. }
  assert (All : forall kids ts x l, In x l -> ~ typed ts x -> ~ meets false kids (DAll ts) (PL l)).
  { intros kids ts x l Hl H H1. apply H. apply (H1 x Hl). }
  intros t k H. cbn in H.
  repeat (destruct H as [H | H]; [injection H as <- <-|]); [..|destruct H].
  - exists 9, [PB false; PB true; PL []; PN None; PN (Some (atom 1 T_STRING)); PN None; PN None], [atom 1 T_STRING], r0.
    do 4 eexists. do 4 (split; [reflexivity|]). apply Opt, not_typed. reflexivity.
  - exists 9, [PB false; PB true; PL []; PN None; PN None; PN (Some (atom 1 T_STRING)); PN None], [atom 1 T_STRING], r0.
    do 4 eexists. do 4 (split; [reflexivity|]). apply Opt, not_typed. reflexivity.
  - exists 9, [PB false; PB true; PL []; PN None; PN (Some (atom 1 T_STRING)); PN None], [atom 1 T_STRING], r0.
    do 4 eexists. do 4 (split; [reflexivity|]). apply Opt, not_typed. reflexivity.
  - exists 9, [PB false; PB true; PL []; PN None; PN None; PN (Some (atom 1 T_STRING))], [atom 1 T_STRING], r0.
    do 4 eexists. do 4 (split; [reflexivity|]). apply Opt, not_typed. reflexivity.
  - exists 9, [PB false; PB true; PL []; PN None; PN None; PN None; PN (Some (atom 1 T_LABEL))], [atom 1 T_LABEL], r0.
    do 4 eexists. do 4 (split; [reflexivity|]). apply Opt, not_typed. reflexivity.
  - exists 9, [PN (Some (atom 1 T_MAP)); PL [atom 2 T_MAP]], [atom 1 T_MAP; atom 2 T_MAP], r0.
    do 4 eexists. do 4 (split; [reflexivity|]). apply All with (atom 2 T_MAP); [left; reflexivity|].
    apply not_typed. reflexivity.
  - exists 9, [PN None; PL []; PN None], [], r0. do 4 eexists. do 4 (split; [reflexivity|]).
    intros [x [E _]]. discriminate E.
  - exists 9, [PN None; PL [atom 1 T_MAP; atom 2 T_LABEL]; PN None], [atom 1 T_MAP; atom 2 T_LABEL], r0.
    do 4 eexists. do 4 (split; [reflexivity|]). apply All with (atom 2 T_LABEL); [right; left; reflexivity|].
    apply not_typed. reflexivity.
  - exists 9, [PN None; PN (Some (atom 1 T_PATTERN_PATH)); PN None; PN (Some (atom 2 T_MAP))],
      [atom 1 T_PATTERN_PATH; atom 2 T_MAP], r0.
    do 4 eexists. do 4 (split; [reflexivity|]). apply One, not_typed. reflexivity.
  - exists 9, [PN (Some (atom 1 T_IDENTIFIER)); PN (Some (atom 2 T_RELTYPE)); PN (Some (atom 3 T_MAP)); PB false],
      [atom 1 T_IDENTIFIER; atom 2 T_RELTYPE; atom 3 T_MAP], r0.
    do 4 eexists. do 4 (split; [reflexivity|]). apply One, not_typed. reflexivity.
  - exists 9, [PN (Some (atom 1 T_IDENTIFIER)); PN (Some (atom 2 T_RELTYPE)); PN (Some (atom 3 T_MAP)); PB false],
      [atom 1 T_IDENTIFIER; atom 2 T_RELTYPE; atom 3 T_MAP], r0.
    do 4 eexists. do 4 (split; [reflexivity|]). apply One, not_typed. reflexivity.
Qed.
Print Assumptions constructor_checks_refuted.

(** ** Cloning (C32) *)

(** If [cypher_ast_clone] returns a tree, it is a copy made of new nodes.
    Partial: for trees without nodes of the types listed as [miscloned] and
    [half_cloned] and without strings containing NUL. *)
Theorem clone_copies_partial : forall t n c m, Forall clonable (preorder t) ->
  clone n t = ClOk (c, m) -> same t c /\ brand_new n m c.
Proof. intros t n c m H1 H2. destruct (clone_is_copy t H1 n c m H2) as [A [B _]]. auto. Qed.
Print Assumptions clone_copies_partial.

(** For such trees it returns just when no node refers to a child other than
    its first: otherwise the search for the child never ends. *)
Theorem clone_returns_partial : forall t n, Forall clonable (preorder t) -> NoDup (map nid (preorder t)) ->
  ((exists c m, clone n t = ClOk (c, m)) <-> Forall points_first (preorder t)).
Proof.
  intros t n H1 H2. split.
  - intros [c [m H]]. eapply returns_first; eassumption.
  - intros H. apply first_returns; assumption.
Qed.
Print Assumptions clone_returns_partial.

(** Nodes of the types listed as [miscloned], among them every RETURN and every
    WITH clause, are never copied: the call does not return, aborts or returns
    something else. *)
Theorem clone_never_copies_refuted : forall t n c m, In (nty t) miscloned ->
  clone n t = ClOk (c, m) -> ~ same t c.
Proof. exact never_copied. Qed.
Print Assumptions clone_never_copies_refuted.

(** The trees of two parses: "CALL foo;" is copied, "RETURN 1;" is not: the
    call does not return. *)
Definition parsed (s : bytes) : list node :=
  match parse_all std_config (fun inp _ => List.length inp) (mkpf false false) s with
  | ARes r _ => pr_roots r
  | _ => []
  end.

Theorem clone_refuted : exists t, parsed (B "RETURN 1;") = [t] /\ forall n, clone n t = ClHang.
Proof. eexists. split; [vm_compute; reflexivity|]. intros n. reflexivity. Qed.
Print Assumptions clone_refuted.

Definition call_tree : list node := Eval vm_compute in parsed (B "CALL foo;").
Definition rr (a b : nat) := mkrange (mkpos 1 (S a) a) (mkpos 1 (S b) b).
Definition x_proc := Node 0 T_PROC_NAME (rr 5 8) [FStr (B "foo")] [] 3.
Definition x_call := Node 1 T_CALL (rr 0 8) [FNode (Some 0); FList []; FList []; FNode None] [x_proc] 2.
Definition x_query := Node 2 T_QUERY (rr 0 9) [FList []; FList [1]] [x_call] 1.
Definition x_stmt := Node 3 T_STATEMENT (rr 0 9) [FList []; FNode (Some 2)] [x_query] 0.

Example clone_example : exists t, call_tree = [t] /\ Forall clonable (preorder t) /\
  NoDup (map nid (preorder t)) /\ Forall points_first (preorder t) /\
  exists c, clone 100 t = ClOk (c, 104).
Proof.
  assert (N : forall t, tmem t (miscloned ++ half_cloned) = false -> ~ In t (miscloned ++ half_cloned)).
  { intros t H A. assert (tmem t (miscloned ++ half_cloned) = true); [|congruence].
    apply existsb_exists. exists t. split; [exact A|]. apply type_eqb_eq. reflexivity. }
  exists x_stmt. split; [reflexivity|]. split; [|split; [|split]].
  - repeat (apply Forall_cons; [split; [|split; [apply N; reflexivity|]]|]); [..|constructor].
    + exists [PL []; PN (Some x_query)]. split; [reflexivity|]. split; [|split; [|discriminate]].
      * intros y [H | [H | []]]; [discriminate H|]. injection H as <-. left. reflexivity.
      * intros l y [H | [H | []]]; [|discriminate H]. injection H as <-. intros [].
    + intros s [H | [H | []]]; discriminate H.
    + exists [PL []; PL [x_call]]. split; [reflexivity|]. split; [|split; [|discriminate]].
      * intros y [H | [H | []]]; discriminate H.
      * intros l y [H | [H | []]]; injection H as <-; [intros []|]. intros [<- | []]. left. reflexivity.
    + intros s [H | [H | []]]; discriminate H.
    + exists [PN (Some x_proc); PL []; PL []; PN None]. split; [reflexivity|]. split; [|split; [|discriminate]].
      * intros y [H | [H | [H | [H | []]]]]; try discriminate H. injection H as <-. left. reflexivity.
      * intros l y [H | [H | [H | [H | []]]]]; try discriminate H; injection H as <-; intros [].
    + intros s [H | [H | [H | [H | []]]]]; discriminate H.
    + exists [PS (B "foo")]. split; [reflexivity|]. split; [|split; [|reflexivity]].
      * intros y [H | []]; discriminate H.
      * intros l y [H | []]; discriminate H.
    + intros s [H | []]. injection H as <-. intros [H | [H | [H | []]]]; discriminate H.
  - repeat (constructor; [intros H; repeat (destruct H as [H | H]; [discriminate H|]); destruct H|]). constructor.
  - repeat constructor; intros i Hi; cbn in Hi; try destruct Hi as [<- | []]; try destruct Hi; (do 2 eexists; split; reflexivity).
  - eexists. reflexivity.
Qed.
