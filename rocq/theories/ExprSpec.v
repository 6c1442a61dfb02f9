(** * Specification: expressions and their texts

    Expressions over the operators, the node a parse of one should give, and the
    texts that denote one.  The precedence of the operators is that of the
    openCypher grammar, written down here again and not taken from the model. *)
From Coq Require Import List Bool Arith Ascii String.
From Verif Require Import Peg QuickModel CypherSyntax AstTypes LexSpec TermSpec.
Import ListNotations.

(** what goes over the elements of a list *)
Inductive over : Set := Filter | Extract | AllOf | AnyOf | NoneOf | SingleOf.

Inductive ex : Set :=
| EStr (v : bytes)
| EInt (v : bytes)
| EParam (v : bytes)
| EIdent (v : bytes)
| ETrue | EFalse | ENull
| EUn (o : oper) (e : ex)                       (* NOT, unary plus and minus *)
| EBin (o : oper) (l r : ex)
| ECmp (l : ex) (links : list (oper * ex))      (* a < b <= c *)
| EPost (o : oper) (e : ex)                     (* IS NULL, IS NOT NULL *)
| EProp (e : ex) (v : bytes)                    (* e.v *)
| ESub (e i : ex)                               (* e[i] *)
| ESlice (e : ex) (a b : option ex)             (* e[a..b] *)
| EList (es : list ex)                          (* [e, ...] *)
| EMap (es : list (bytes * ex))                 (* {k: e, ...} *)
| EOver (q : over) (x : bytes) (l : ex) (p : option ex)      (* ALL(x IN l WHERE p) *)
| EComp (x : bytes) (l : ex) (p v : option ex)  (* [x IN l WHERE p | v] *)
| EReduce (a : bytes) (i : ex) (x : bytes) (l : ex) (v : option ex)  (* REDUCE(a = i, x IN l | v) *)
| ECall (f : bytes) (distinct : bool) (es : list ex)         (* f(DISTINCT e, ...) *)
| ECallAll (f : bytes) (distinct : bool)        (* f( * ) *)
| ECase (e : option ex) (alts : list (ex * ex)) (d : option ex).  (* CASE e WHEN c THEN r ... ELSE d END *)

(** ** The tree *)
Definition over_type (q : over) : asttype :=
  match q with
  | Filter => T_FILTER | Extract => T_EXTRACT | AllOf => T_ALL | AnyOf => T_ANY | NoneOf => T_NONE | SingleOf => T_SINGLE
  end.
Definition ident (x : bytes) : tfield := TNode (Some (T T_IDENTIFIER [TStr x])).
Fixpoint ex_term (e : ex) : term :=
  match e with
  | EStr v => T T_STRING [TStr v]
  | EInt v => T T_INTEGER [TStr v]
  | EParam v => T T_PARAMETER [TStr v]
  | EIdent v => T T_IDENTIFIER [TStr v]
  | ETrue => T T_TRUE []
  | EFalse => T T_FALSE []
  | ENull => T T_NULL []
  | EUn o e | EPost o e => T T_UNARY_OPERATOR [TOper (Some o); TNode (Some (ex_term e))]
  | EBin o l r => T T_BINARY_OPERATOR [TOper (Some o); TNode (Some (ex_term l)); TNode (Some (ex_term r))]
  | ECmp l links => T T_COMPARISON [TOpers (map fst links); TList (ex_term l :: map (fun x => ex_term (snd x)) links)]
  | EProp e v => T T_PROPERTY_OPERATOR [TNode (Some (ex_term e)); TNode (Some (T T_PROP_NAME [TStr v]))]
  | ESub e i => T T_SUBSCRIPT_OPERATOR [TNode (Some (ex_term e)); TNode (Some (ex_term i))]
  | ESlice e a b => T T_SLICE_OPERATOR [TNode (Some (ex_term e)); TNode (option_map ex_term a); TNode (option_map ex_term b)]
  | EList es => T T_COLLECTION [TList (map ex_term es)]
  | EMap es => T T_MAP [TList (flat_map (fun x => [T T_PROP_NAME [TStr (fst x)]; ex_term (snd x)]) es)]
  | EOver q x l p => T (over_type q) [ident x; TNode (Some (ex_term l)); TNode (option_map ex_term p)]
  | EComp x l p v => T T_LIST_COMPREHENSION [ident x; TNode (Some (ex_term l)); TNode (option_map ex_term p); TNode (option_map ex_term v)]
  | EReduce a i x l v => T T_REDUCE [ident a; TNode (Some (ex_term i)); ident x; TNode (Some (ex_term l)); TNode (option_map ex_term v)]
  | ECall f d es => T T_APPLY_OPERATOR [TNode (Some (T T_FUNCTION_NAME [TStr f])); TBool d; TList (map ex_term es)]
  | ECallAll f d => T T_APPLY_ALL_OPERATOR [TNode (Some (T T_FUNCTION_NAME [TStr f])); TBool d]
  | ECase e alts d => T T_CASE [TNode (option_map ex_term e);
      TList (flat_map (fun x => [ex_term (fst x); ex_term (snd x)]) alts); TNode (option_map ex_term d)]
  end.

(** ** The operators *)
Definition prefixes : list oper := [OP_NOT; OP_UNARY_PLUS; OP_UNARY_MINUS].
Definition binaries : list oper :=
  [OP_OR; OP_XOR; OP_AND; OP_EQUAL; OP_NEQUAL; OP_PLUS; OP_MINUS; OP_MULT; OP_DIV; OP_MOD; OP_POW;
   OP_REGEX; OP_IN; OP_STARTS_WITH; OP_ENDS_WITH; OP_CONTAINS].
Definition comparisons : list oper := [OP_LT; OP_GT; OP_LTE; OP_GTE].
Definition postfixes : list oper := [OP_IS_NULL; OP_IS_NOT_NULL].
Definition op_text (o : oper) : bytes :=
  match o with
  | OP_OR => B "OR " | OP_XOR => B "XOR " | OP_AND => B "AND " | OP_NOT => B "NOT "
  | OP_EQUAL => B "= " | OP_NEQUAL => B "<> " | OP_LT => B "< " | OP_GT => B "> " | OP_LTE => B "<= " | OP_GTE => B ">= "
  | OP_PLUS => B "+ " | OP_MINUS => B "- " | OP_MULT => B "* " | OP_DIV => B "/ " | OP_MOD => B "% " | OP_POW => B "^ "
  | OP_UNARY_PLUS => B "+ " | OP_UNARY_MINUS => B "- "
  | OP_REGEX => B "=~ " | OP_IN => B "IN " | OP_STARTS_WITH => B "STARTS WITH " | OP_ENDS_WITH => B "ENDS WITH "
  | OP_CONTAINS => B "CONTAINS " | OP_IS_NULL => B "IS NULL " | OP_IS_NOT_NULL => B "IS NOT NULL "
  | OP_MAP_PROJECTION | OP_SUBSCRIPT | OP_PROPERTY | OP_LABEL => []
  end.

(** the higher, the tighter the operator binds *)
Definition level (o : oper) : nat :=
  match o with
  | OP_OR => 1
  | OP_XOR => 2
  | OP_AND => 3
  | OP_NOT => 4
  | OP_EQUAL | OP_NEQUAL => 5
  | OP_LT | OP_GT | OP_LTE | OP_GTE => 6
  | OP_PLUS | OP_MINUS => 7
  | OP_MULT | OP_DIV | OP_MOD => 8
  | OP_POW => 9
  | OP_UNARY_PLUS | OP_UNARY_MINUS => 10
  | OP_REGEX | OP_IN | OP_STARTS_WITH | OP_ENDS_WITH | OP_CONTAINS | OP_IS_NULL | OP_IS_NOT_NULL => 11
  | OP_MAP_PROJECTION | OP_SUBSCRIPT => 12
  | OP_PROPERTY | OP_LABEL => 13
  end.
(** powers group to the right, all others to the left *)
Definition left_level (o : oper) : nat := match o with OP_POW => 10 | _ => level o end.
Definition right_level (o : oper) : nat := match o with OP_POW => 9 | _ => S (level o) end.

(** ** The texts *)
(** In parentheses, a name, a parameter, a constant that looks like a name, a
    map, and [NOT $p] can be the node of a pattern: (a)-[b]-(c).  They are not put
    in parentheses here, and neither is what starts with a map. *)
Fixpoint map_led (e : ex) : bool :=
  match e with
  | EMap _ => true
  | EUn OP_NOT e | EBin _ e _ | ECmp e _ | EPost _ e | EProp e _ | ESub e _ | ESlice e _ _ | ECase (Some e) _ _ => map_led e
  | _ => false
  end.
Definition bare (e : ex) : bool :=
  match e with
  | EParam _ | EIdent _ | ETrue | EFalse | ENull | EUn OP_NOT (EParam _) => true
  | _ => map_led e
  end.
(** What starts with a membership test of a name is not the first element of a
    list here: [a IN b] is a list comprehension. *)
Fixpoint in_led (e : ex) : bool :=
  match e with
  | EBin OP_IN (EIdent _ | ETrue | EFalse | ENull) _ => true
  | EBin _ e _ | ECmp e _ | EPost _ e | EProp e _ | ESub e _ | ESlice e _ _ => in_led e
  | _ => false
  end.

Definition over_word (q : over) : bytes :=
  match q with
  | Filter => B "FILTER ( " | Extract => B "EXTRACT ( " | AllOf => B "ALL ( " | AnyOf => B "ANY ( " | NoneOf => B "NONE ( "
  | SingleOf => B "SINGLE ( "
  end.
Definition over_sep (q : over) : bytes := match q with Extract => B "| " | _ => B "WHERE " end.
Definition name_text (v : bytes) : bytes := B "`" ++ v ++ B "` ".
Definition distinct_text (d : bool) : bytes := if d then B "DISTINCT " else [].

(** [prints k e u]: [u] is a text of [e] where only what binds at level [k] or
    tighter need not be in parentheses.  Tokens are followed by one space;
    parentheses that are not needed are allowed, and strings can be quoted and
    escaped in any way. *)
Inductive prints : nat -> ex -> bytes -> Prop :=
| p_str : forall k u v, quoted_text u v -> prints k (EStr v) (u ++ B " ")
| p_int : forall k v, v <> [] -> all_in digit_chars v -> prints k (EInt v) (v ++ B " ")
| p_param : forall k v, ~ In "`"%char v -> prints k (EParam v) (B "$`" ++ v ++ B "` ")
| p_ident : forall k v, ~ In "`"%char v -> prints k (EIdent v) (name_text v)
| p_true : forall k, prints k ETrue (B "true ")
| p_false : forall k, prints k EFalse (B "false ")
| p_null : forall k, prints k ENull (B "null ")
| p_un : forall k o e u, In o prefixes -> k <= level o -> prints (level o) e u -> prints k (EUn o e) (op_text o ++ u)
| p_bin : forall k o l r ul ur, In o binaries -> k <= level o -> prints (left_level o) l ul -> prints (right_level o) r ur ->
    prints k (EBin o l r) (ul ++ op_text o ++ ur)
| p_cmp : forall k l links ul us, k <= 6 -> prints 7 l ul -> prints_links links us -> prints k (ECmp l links) (ul ++ us)
| p_post : forall k o e u, In o postfixes -> k <= level o -> prints (level o) e u -> prints k (EPost o e) (u ++ op_text o)
| p_prop : forall k e v u, ~ In "`"%char v -> k <= 13 -> prints 13 e u -> prints k (EProp e v) (u ++ B ". `" ++ v ++ B "` ")
| p_sub : forall k e i u w, k <= 12 -> prints 12 e u -> prints 0 i w -> prints k (ESub e i) (u ++ B "[ " ++ w ++ B "] ")
| p_slice : forall k e a b u ua ub, k <= 12 -> prints 12 e u -> prints_opt [] a ua -> prints_opt [] b ub ->
    prints k (ESlice e a b) (u ++ B "[ " ++ ua ++ B ".. " ++ ub ++ B "] ")
| p_list0 : forall k, prints k (EList []) (B "[ ] ")
| p_list : forall k e es u us, in_led e = false -> prints 0 e u -> prints_more es us ->
    prints k (EList (e :: es)) (B "[ " ++ u ++ us ++ B "] ")
| p_map0 : forall k, prints k (EMap []) (B "{ } ")
| p_map : forall k v e es u us, ~ In "`"%char v -> prints 0 e u -> prints_entries es us ->
    prints k (EMap ((v, e) :: es)) (B "{ " ++ name_text v ++ B ": " ++ u ++ us ++ B "} ")
| p_over : forall k q x l p u w, ~ In "`"%char x -> prints 0 l u -> prints_opt (over_sep q) p w ->
    prints k (EOver q x l p) (over_word q ++ name_text x ++ B "IN " ++ u ++ w ++ B ") ")
| p_comp : forall k x l p v u w z, ~ In "`"%char x -> prints 0 l u -> prints_opt (B "WHERE ") p w -> prints_opt (B "| ") v z ->
    prints k (EComp x l p v) (B "[ " ++ name_text x ++ B "IN " ++ u ++ w ++ z ++ B "] ")
| p_reduce : forall k a i x l v ui u w, ~ In "`"%char a -> prints 0 i ui -> ~ In "`"%char x -> prints 0 l u -> prints_opt (B "| ") v w ->
    prints k (EReduce a i x l v) (B "REDUCE ( " ++ name_text a ++ B "= " ++ ui ++ B ", " ++ name_text x ++ B "IN " ++ u ++ w ++ B ") ")
| p_call0 : forall k f d, ~ In "`"%char f -> prints k (ECall f d []) (name_text f ++ B "( " ++ distinct_text d ++ B ") ")
| p_call : forall k f d e es u us, ~ In "`"%char f -> prints 0 e u -> prints_more es us ->
    prints k (ECall f d (e :: es)) (name_text f ++ B "( " ++ distinct_text d ++ u ++ us ++ B ") ")
| p_callall : forall k f d, ~ In "`"%char f -> prints k (ECallAll f d) (name_text f ++ B "( " ++ distinct_text d ++ B "* ) ")
| p_case : forall k e alts d u us w, prints_opt [] e u -> prints_alts alts us -> prints_opt (B "ELSE ") d w ->
    prints k (ECase e alts d) (B "CASE " ++ u ++ us ++ w ++ B "END ")
| p_paren : forall k e u, bare e = false -> prints 0 e u -> prints k e (B "( " ++ u ++ B ") ")
with prints_links : list (oper * ex) -> bytes -> Prop :=
| pl_last : forall o e u, In o comparisons -> prints 7 e u -> prints_links [(o, e)] (op_text o ++ u)
| pl_more : forall o e u ls us, In o comparisons -> prints 7 e u -> prints_links ls us ->
    prints_links ((o, e) :: ls) ((op_text o ++ u) ++ us)
(** something that can be left out, and the word in front of it *)
with prints_opt : bytes -> option ex -> bytes -> Prop :=
| po_none : forall w, prints_opt w None []
| po_some : forall w e u, prints 0 e u -> prints_opt w (Some e) (w ++ u)
(** the elements after the first *)
with prints_more : list ex -> bytes -> Prop :=
| pm_none : prints_more [] []
| pm_some : forall e u es us, prints 0 e u -> prints_more es us -> prints_more (e :: es) ((B ", " ++ u) ++ us)
with prints_entries : list (bytes * ex) -> bytes -> Prop :=
| pe_none : prints_entries [] []
| pe_some : forall v e u es us, ~ In "`"%char v -> prints 0 e u -> prints_entries es us ->
    prints_entries ((v, e) :: es) ((B ", " ++ name_text v ++ B ": " ++ u) ++ us)
with prints_alts : list (ex * ex) -> bytes -> Prop :=
| pa_last : forall c r u w, prints 0 c u -> prints 0 r w -> prints_alts [(c, r)] (B "WHEN " ++ u ++ B "THEN " ++ w)
| pa_more : forall c r u w es us, prints 0 c u -> prints 0 r w -> prints_alts es us ->
    prints_alts ((c, r) :: es) ((B "WHEN " ++ u ++ B "THEN " ++ w) ++ us).

Scheme prints_ind6 := Induction for prints Sort Prop
with prints_links_ind6 := Induction for prints_links Sort Prop
with prints_opt_ind6 := Induction for prints_opt Sort Prop
with prints_more_ind6 := Induction for prints_more Sort Prop
with prints_entries_ind6 := Induction for prints_entries Sort Prop
with prints_alts_ind6 := Induction for prints_alts Sort Prop.
Combined Scheme prints_mind from prints_ind6, prints_links_ind6, prints_opt_ind6, prints_more_ind6, prints_entries_ind6, prints_alts_ind6.

(** ** The text with no more parentheses than needed *)
Definition quote1 (c : ascii) : bytes :=
  if Ascii.eqb c "'" || Ascii.eqb c "\" then ["\"%char; c] else if Ascii.eqb c "010" then B "\n" else [c].
Definition quote (v : bytes) : bytes := B "'" ++ flat_map quote1 v ++ B "'".

Definition own_level (e : ex) : nat :=
  match e with
  | EUn o _ | EBin o _ _ | EPost o _ => level o
  | ECmp _ _ => 6
  | EProp _ _ => 13
  | ESub _ _ | ESlice _ _ _ => 12
  | _ => 14
  end.
Definition opt_text (w : bytes) (f : ex -> bytes) (x : option ex) : bytes := match x with Some e => w ++ f e | None => [] end.
(** the elements after the first *)
Definition more_text {A} (f : A -> bytes) (es : list A) : bytes := flat_map (fun x => B ", " ++ f x) es.
Definition all_text {A} (f : A -> bytes) (es : list A) : bytes := match es with [] => [] | e :: es => f e ++ more_text f es end.
Definition links_text (f : ex -> bytes) (ls : list (oper * ex)) : bytes := flat_map (fun x => op_text (fst x) ++ f (snd x)) ls.
Fixpoint show (k : nat) (e : ex) : bytes :=
  let body :=
    match e with
    | EStr v => quote v ++ B " "
    | EInt v => v ++ B " "
    | EParam v => B "$`" ++ v ++ B "` "
    | EIdent v => name_text v
    | ETrue => B "true "
    | EFalse => B "false "
    | ENull => B "null "
    | EUn o e => op_text o ++ show (level o) e
    | EBin o l r => show (left_level o) l ++ op_text o ++ show (right_level o) r
    | ECmp l links => show 7 l ++ links_text (show 7) links
    | EPost o e => show (level o) e ++ op_text o
    | EProp e v => show 13 e ++ B ". `" ++ v ++ B "` "
    | ESub e i => show 12 e ++ B "[ " ++ show 0 i ++ B "] "
    | ESlice e a b => show 12 e ++ B "[ " ++ opt_text [] (show 0) a ++ B ".. " ++ opt_text [] (show 0) b ++ B "] "
    | EList es => B "[ " ++ all_text (show 0) es ++ B "] "
    | EMap es => B "{ " ++ all_text (fun x => name_text (fst x) ++ B ": " ++ show 0 (snd x)) es ++ B "} "
    | EOver q x l p => over_word q ++ name_text x ++ B "IN " ++ show 0 l ++ opt_text (over_sep q) (show 0) p ++ B ") "
    | EComp x l p v => B "[ " ++ name_text x ++ B "IN " ++ show 0 l ++ opt_text (B "WHERE ") (show 0) p ++ opt_text (B "| ") (show 0) v ++ B "] "
    | EReduce a i x l v => B "REDUCE ( " ++ name_text a ++ B "= " ++ show 0 i ++ B ", " ++ name_text x ++ B "IN " ++ show 0 l ++
        opt_text (B "| ") (show 0) v ++ B ") "
    | ECall f d es => name_text f ++ B "( " ++ distinct_text d ++ all_text (show 0) es ++ B ") "
    | ECallAll f d => name_text f ++ B "( " ++ distinct_text d ++ B "* ) "
    | ECase e alts d => B "CASE " ++ opt_text [] (show 0) e ++
        flat_map (fun x => B "WHEN " ++ show 0 (fst x) ++ B "THEN " ++ show 0 (snd x)) alts ++ opt_text (B "ELSE ") (show 0) d ++ B "END "
    end in
  if Nat.leb k (own_level e) then body else B "( " ++ body ++ B ") ".

(** The expressions meant: operators where they belong, names that can be
    quoted, numbers made of digits, at least one comparison in a chain and at
    least one alternative in a CASE. *)
Definition opt_all (f : ex -> Prop) (x : option ex) : Prop := match x with Some e => f e | None => True end.
Definition all_all {A} (f : A -> Prop) : list A -> Prop :=
  fix all (l : list A) : Prop := match l with [] => True | x :: l => f x /\ all l end.
Fixpoint well_formed (e : ex) : Prop :=
  match e with
  | EStr _ | ETrue | EFalse | ENull => True
  | EInt v => v <> [] /\ all_in digit_chars v
  | EParam v | EIdent v => ~ In "`"%char v
  | EUn o e => In o prefixes /\ well_formed e
  | EBin o l r => In o binaries /\ well_formed l /\ well_formed r
  | ECmp l links => well_formed l /\ links <> [] /\ all_all (fun x => In (fst x) comparisons /\ well_formed (snd x)) links
  | EPost o e => In o postfixes /\ well_formed e
  | EProp e v => ~ In "`"%char v /\ well_formed e
  | ESub e i => well_formed e /\ well_formed i
  | ESlice e a b => well_formed e /\ opt_all well_formed a /\ opt_all well_formed b
  | EList es => all_all well_formed es
  | EMap es => all_all (fun x => ~ In "`"%char (fst x) /\ well_formed (snd x)) es
  | EOver q x l p => ~ In "`"%char x /\ well_formed l /\ opt_all well_formed p
  | EComp x l p v => ~ In "`"%char x /\ well_formed l /\ opt_all well_formed p /\ opt_all well_formed v
  | EReduce a i x l v => ~ In "`"%char a /\ well_formed i /\ ~ In "`"%char x /\ well_formed l /\ opt_all well_formed v
  | ECall f d es => ~ In "`"%char f /\ all_all well_formed es
  | ECallAll f d => ~ In "`"%char f
  | ECase e alts d => opt_all well_formed e /\ alts <> [] /\ all_all (fun x => well_formed (fst x) /\ well_formed (snd x)) alts /\ opt_all well_formed d
  end.

(** [show k e] has no parentheses around what could be the node of a pattern (see
    [bare]) and no list that looks like a comprehension (see [in_led]) *)
Fixpoint clear (k : nat) (e : ex) : Prop :=
  (bare e = true -> k <= own_level e) /\
  match e with
  | EStr _ | EInt _ | EParam _ | EIdent _ | ETrue | EFalse | ENull | ECallAll _ _ => True
  | EUn o e | EPost o e => clear (level o) e
  | EBin o l r => clear (left_level o) l /\ clear (right_level o) r
  | ECmp l links => clear 7 l /\ all_all (fun x => clear 7 (snd x)) links
  | EProp e v => clear 13 e
  | ESub e i => clear 12 e /\ clear 0 i
  | ESlice e a b => clear 12 e /\ opt_all (clear 0) a /\ opt_all (clear 0) b
  | EList es => match es with e :: _ => in_led e = false | [] => True end /\ all_all (clear 0) es
  | EMap es => all_all (fun x => clear 0 (snd x)) es
  | EOver _ _ l p => clear 0 l /\ opt_all (clear 0) p
  | EComp _ l p v => clear 0 l /\ opt_all (clear 0) p /\ opt_all (clear 0) v
  | EReduce _ i _ l v => clear 0 i /\ clear 0 l /\ opt_all (clear 0) v
  | ECall _ _ es => all_all (clear 0) es
  | ECase e alts d => opt_all (clear 0) e /\ all_all (fun x => clear 0 (fst x) /\ clear 0 (snd x)) alts /\ opt_all (clear 0) d
  end.

(** ** A statement that returns an expression *)
Definition return_text (u x : bytes) : bytes := B "RETURN " ++ u ++ B "AS `" ++ x ++ B "` ;".
Definition return_term (t : term) (x : bytes) : term :=
  T T_STATEMENT [TList []; TNode (Some (T T_QUERY [TList []; TList [T T_RETURN [TBool false; TBool false;
    TList [T T_PROJECTION [TNode (Some t); TNode (Some (T T_IDENTIFIER [TStr x]))]];
    TNode None; TNode None; TNode None]]]))].
