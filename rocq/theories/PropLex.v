(** * Literals and names (C35, C48)

    Specification: LexSpec.v (and [matched_with] of TraceSpec.v).
    Model: CypherParse.v (parser.c, parser.leg). *)
From Coq Require Import List Bool Arith ZArith Ascii String Lia Permutation.
From Verif Require Import Peg QuickModel QuickSpec ErrModel CypherSyntax CypherGrammar CypherMatch AstTypes AstModel
  CypherExec CypherParse CypherSpec CypherLoop PropCypher TraceSpec TraceProofs LexSpec LexProofs.
Import ListNotations.

(** ** C48 *)
(** Take the uses of grammar rules in the match that gave a segment.  The
    leaves these uses stand for, and the leaves (strings, numbers, names,
    parameters) anywhere in the trees of the segment, are the same up to order:
    type, text and range. *)
Theorem leaves_match_input : forall cf la cb fl inp ret segs last seg,
  parse_each cf la cb fl inp = PRet ret segs last -> In seg segs ->
  exists uses ls, matched_with cf fl inp seg uses /\ Forall2 (leaves_of inp) uses ls /\
    Permutation (map leaf_view (filter is_leaf (forest (s_roots seg))))
      (map (leaf_at (offset (cf_position cf))) (List.concat ls)).
Proof. exact parse_each_leaves. Qed.
Print Assumptions leaves_match_input.

(** a leaf comes from the use of a rule, which is over at least the leaf *)
Lemma leaf_used : forall inp uses ls x, Forall2 (leaves_of inp) uses ls -> In x (List.concat ls) ->
  exists r p q l, In (r, p, q) uses /\ leaves_of inp (r, p, q) l /\ In x l.
Proof.
  intros inp uses ls x H. induction H as [|[[r p] q] l uses ls H1 _ IH]; cbn; [contradiction|].
  intros Hx. apply in_app_iff in Hx. destruct Hx as [Hx|Hx].
  - exists r, p, q, l. auto.
  - destruct (IH Hx) as (r' & p' & q' & l' & A & B & C). exists r', p', q', l'. auto.
Qed.
Lemma use_leaf : forall inp uses ls v, Forall2 (leaves_of inp) uses ls -> In v uses ->
  exists l, leaves_of inp v l /\ forall x, In x l -> In x (List.concat ls).
Proof.
  intros inp uses ls v H. induction H as [|u l uses ls H1 _ IH]; cbn; [contradiction|].
  intros [<-|Hv].
  - exists l. split; [exact H1|]. intros x Hx. apply in_app_iff. auto.
  - destruct (IH Hv) as (l' & A & C). exists l'. split; [exact A|]. intros x Hx. apply in_app_iff. auto.
Qed.
Lemma one_leaf_in : forall ty shape inp p q l ty' t p' e', one_leaf ty shape inp p q l -> In (ty', t, p', e') l ->
  ty' = ty /\ p' = p /\ p <= e' <= q /\ shape (slice inp p e') t /\ gap (slice inp e' q).
Proof.
  intros ty shape inp p q l ty' t p' e' (e & t0 & H1 & H2 & H3 & ->) [E|[]]. injection E as <- <- <- <-. auto.
Qed.
Lemma leaf_found : forall k seg ls n,
  Permutation (map leaf_view (filter is_leaf (forest (s_roots seg)))) (map (leaf_at k) (List.concat ls)) ->
  In n (forest (s_roots seg)) -> is_leaf n = true ->
  exists p e, In (nty n, text_of n, p, e) (List.concat ls) /\
    offset (r_start (nrng n)) = k + p /\ offset (r_end (nrng n)) = k + e.
Proof.
  intros k seg ls n HP Hn Hl.
  assert (K : In (leaf_view n) (map (leaf_at k) (List.concat ls))).
  { apply (Permutation_in _ HP). apply in_map, filter_In. auto. }
  apply in_map_iff in K. destruct K as ([[[ty t] p] e] & E & K). unfold leaf_view, leaf_at in E.
  exists p, e. injection E as <- <- E1 E2. auto.
Qed.
Lemma leaf_built : forall k seg ls ty t p e,
  Permutation (map leaf_view (filter is_leaf (forest (s_roots seg)))) (map (leaf_at k) (List.concat ls)) ->
  In (ty, t, p, e) (List.concat ls) ->
  exists n, In n (forest (s_roots seg)) /\ nty n = ty /\ text_of n = t /\
    offset (r_start (nrng n)) = k + p /\ offset (r_end (nrng n)) = k + e.
Proof.
  intros k seg ls ty t p e HP Hi. apply (in_map (leaf_at k)) in Hi.
  apply (Permutation_in _ (Permutation_sym HP)) in Hi. apply in_map_iff in Hi. destruct Hi as [n [E Hn]].
  apply filter_In in Hn. destruct Hn as [Hn _]. exists n. unfold leaf_view, leaf_at in E. injection E as -> -> -> ->. auto.
Qed.

(** The text of a name, a number or a parameter is what its range of the input
    stands for. *)
Theorem names_and_numbers_match_input : forall cf la cb fl inp ret segs last seg n,
  parse_each cf la cb fl inp = PRet ret segs last -> In seg segs -> In n (forest (s_roots seg)) -> is_leaf n = true ->
  exists p e, covers (offset (cf_position cf)) n p e /\ leaf_shape (nty n) (slice inp p e) (text_of n).
Proof.
  intros cf la cb fl inp ret segs last seg n H Hs Hn Hl.
  destruct (parse_each_leaves _ _ _ _ _ _ _ _ _ H Hs) as (uses & ls & _ & U1 & U2).
  destruct (leaf_found _ _ _ _ U2 Hn Hl) as (p & e & I1 & I2 & I3). exists p, e.
  destruct (leaf_used _ _ _ _ U1 I1) as (r & p' & q & l & _ & J2 & J3).
  enough (p <= e /\ leaf_shape (nty n) (slice inp p e) (text_of n)) as [K1 K2] by (split; [split; auto|exact K2]).
  destruct r; cbn [leaves_of] in J2; try (subst l; contradiction J3);
    try (destruct (one_leaf_in _ _ _ _ _ _ _ _ _ _ J2 J3) as (-> & -> & K1 & K2 & _); split; [apply K1|cbn; auto]).
  destruct J2 as [-> |(t & LE & T & ->)]; [contradiction J3|]. destruct J3 as [E|[]]. injection E as <- <- <- <-.
  split; [exact LE|right; exact T].
Qed.
Print Assumptions names_and_numbers_match_input.

(** ** C35 *)
(** A string literal of the input (a use of the rule for them) has a string
    node, whose text is what the literal denotes.  A string node has the text of
    a literal, or of a word in a client command, or is a version, name or
    value in a CYPHER prefix. *)
Theorem string_literals_decoded : forall cf la cb fl inp ret segs last seg,
  parse_each cf la cb fl inp = PRet ret segs last -> In seg segs ->
  exists uses, matched_with cf fl inp seg uses /\
    (forall p q, In (R_string_literal, p, q) uses ->
       exists e n, e <= q /\ In n (forest (s_roots seg)) /\ nty n = T_STRING /\ covers (offset (cf_position cf)) n p e /\
         quoted_text (slice inp p e) (text_of n) /\ gap (slice inp e q)) /\
    (forall n, In n (forest (s_roots seg)) -> nty n = T_STRING ->
       exists r p q e, In (r, p, q) uses /\ e <= q /\ covers (offset (cf_position cf)) n p e /\
         (r = R_string_literal /\ quoted_text (slice inp p e) (text_of n) \/
          r = R_client_arg_string /\ word_text (slice inp p e) (text_of n) \/
          In r [R_cypher_version; R_cypher_param_name; R_cypher_param_val] /\ slice inp p e = text_of n)).
Proof.
  intros cf la cb fl inp ret segs last seg H Hs.
  destruct (parse_each_leaves _ _ _ _ _ _ _ _ _ H Hs) as (uses & ls & U0 & U1 & U2). exists uses. split; [exact U0|]. split.
  - intros p q Hu. destruct (use_leaf _ _ _ _ U1 Hu) as (l & (e & t & E1 & E2 & E3 & ->) & L2).
    destruct (leaf_built _ _ _ _ _ _ _ U2 (L2 _ (or_introl eq_refl))) as (n & N1 & N2 & N3 & N4 & N5).
    exists e, n. split; [apply E1|]. split; [exact N1|]. split; [exact N2|]. rewrite N3. split; [split; [apply E1|auto]|]. auto.
  - intros n Hn Ht. assert (Hl : is_leaf n = true) by (unfold is_leaf; rewrite Ht; reflexivity).
    destruct (leaf_found _ _ _ _ U2 Hn Hl) as (p & e & I1 & I2 & I3).
    destruct (leaf_used _ _ _ _ U1 I1) as (r & p' & q & l & J1 & J2 & J3). rewrite Ht in J3. exists r, p, q, e.
    destruct r; cbn [leaves_of] in J2; try (subst l; contradiction J3);
      try (destruct (one_leaf_in _ _ _ _ _ _ _ _ _ _ J2 J3) as (TY & -> & K1 & K2 & _);
           first [discriminate TY | split; [exact J1|]; split; [apply K1|]; split; [split; [apply K1|auto]|]]).
    + right; right. split; [cbn; auto|apply K2].
    + right; right. split; [cbn; auto|apply K2].
    + right; right. split; [cbn; auto|apply K2].
    + destruct J2 as [-> |(t & _ & _ & ->)]; [contradiction J3|]. destruct J3 as [E|[]]; discriminate E.
    + left. auto.
    + right; left. auto.
Qed.
Print Assumptions string_literals_decoded.

(** ** A case *)
Definition lexical : bytes :=
  B "CYPHER 2.3 a=b MATCH (x:`my label` {k: 'it\'s\t\q'})-[:T|:U]->() RETURN x . y, 1.5e3 + f.g($1, {n }), ""a" ++ NL :: B """ AS s;".

Example lexical_leaves : exists ret segs last,
  parse_each std_config whole never plain lexical = PRet ret segs last /\
  map (fun seg => map leaf_view (filter is_leaf (forest (s_roots seg)))) segs =
    [ [(T_STRING, B "2.3", 7, 10); (T_STRING, B "a", 11, 12); (T_STRING, B "b", 13, 14);
       (T_IDENTIFIER, B "x", 22, 23); (T_LABEL, B "my label", 23, 34); (T_PROP_NAME, B "k", 36, 37);
       (T_STRING, B "it's" ++ "009"%char :: B "\q", 39, 50); (T_RELTYPE, B "T", 54, 56); (T_RELTYPE, B "U", 57, 59);
       (T_IDENTIFIER, B "x", 72, 73); (T_PROP_NAME, B "y", 76, 77); (T_IDENTIFIER, B "x . y", 72, 77);
       (T_FLOAT, B "1.5e3", 79, 84); (T_FUNCTION_NAME, B "f.g", 87, 90); (T_PARAMETER, B "1", 91, 93);
       (T_PARAMETER, B "n", 95, 99); (T_IDENTIFIER, B "1.5e3 + f.g($1, {n })", 79, 100);
       (T_STRING, B "a" ++ ["010"%char], 102, 106); (T_IDENTIFIER, B "s", 110, 111)] ].
Proof. do 3 eexists. split; vm_compute; reflexivity. Qed.

Example lexical_literal : quoted_text (slice lexical 39 50) (B "it's" ++ "009"%char :: B "\q").
Proof. exists "'"%char, (B "it\'s\t\q"). split; [left; reflexivity|]. split; vm_compute; reflexivity. Qed.

Example lexical_literal_used :
  filter (fun v => match fst (fst v) with R_string_literal => true | _ => false end)
    (visits (cf_color std_config) (cf_position std_config) lexical (cfuel lexical) (PRule (start_rule plain))
       (match_start (carry0 std_config))) =
  [(R_string_literal, 39, 50); (R_string_literal, 102, 107)].
Proof. vm_compute. reflexivity. Qed.
