(** * Specification: statements and their texts

    Statements made of clauses and patterns, the node a parse of one should give,
    and the texts that denote one.  Expressions: ExprSpec.v. *)
From Coq Require Import List Bool Arith Ascii String.
From Verif Require Import Peg QuickModel CypherSyntax AstTypes LexSpec TermSpec ExprSpec.
Import ListNotations.

(** ** Patterns *)
Inductive props : Set := NoProps | MapProps (es : list (bytes * ex)) | ParamProps (v : bytes).
(** (x:L:M {...}) *)
Record npat : Set := mknp { n_name : option bytes; n_labels : list bytes; n_props : props }.
(** how many steps: one, any number, as many, from a to b *)
Inductive steps : Set := One | Any | Exactly (v : bytes) | Between (a b : option bytes).
(** -[x:T|U *1..2 {...}]-> *)
Record rpat : Set := mkrp { r_dir : dir; r_name : option bytes; r_types : list bytes; r_steps : steps; r_props : props }.
Inductive shape : Set := Plain | Shortest | AllShortest.
(** p = shortestPath((a)-[r]->(b)) *)
Record part : Set := mkpt { pt_name : option bytes; pt_shape : shape; pt_node : npat; pt_links : list (rpat * npat) }.

(** ** Clauses *)
Inductive sitem : Set :=
| SetProp (x : bytes) (ps : list bytes) (e : ex)    (* x.p.q = e *)
| SetAll (x : bytes) (e : ex)                       (* x = e *)
| MergeAll (x : bytes) (e : ex)                     (* x += e *)
| SetLabels (x : bytes) (ls : list bytes).          (* x:L:M *)
Inductive ritem : Set := RemProp (x : bytes) (ps : list bytes) | RemLabels (x : bytes) (ls : list bytes).

(** hints of MATCH: USING INDEX x:L(p), USING SCAN x:L, USING JOIN ON x, y *)
Inductive mhint : Set := UseIndex (x l p : bytes) | UseScan (x l : bytes) | UseJoin (xs : list bytes).
(** where START starts: x = node:i(p = k), x = node:i(k), x = node(1, 2), x = node( * ), and the same for relationships *)
Inductive lookup : Set := ByString (v : bytes) | ByParam (v : bytes).
Inductive source : Set := Lookup (i p : bytes) (k : lookup) | Search (i : bytes) (k : lookup) | Ids (vs : list bytes) | Everything.
Record spoint : Set := mksp { sp_name : bytes; sp_rel : bool; sp_source : source }.

Inductive clause : Set :=
| Match (opt : bool) (ps : list part) (hs : list mhint) (w : option ex)
| Start (ps : list spoint) (w : option ex)
| Return (d star : bool) (ps : list (ex * option bytes)) (o : list (ex * bool)) (s l : option ex)
| With (d star : bool) (ps : list (ex * option bytes)) (o : list (ex * bool)) (s l w : option ex)
| Unwind (e : ex) (x : bytes)
| Merge (p : part) (acts : list (bool * list sitem))    (* true: ON CREATE, false: ON MATCH *)
| Create (unique : bool) (ps : list part)
| SetC (is : list sitem)
| Delete (detach : bool) (es : list ex)
| Remove (is : list ritem)
| Foreach (x : bytes) (e : ex) (cs : list clause)
| Call (f : bytes) (es : list ex) (ys : list (bytes * option bytes)) (w : option ex)
| LoadCsv (headers : bool) (e : ex) (x : bytes) (t : option bytes)
| Union (all : bool).

(** ** The tree *)
Definition named (ty : asttype) (x : bytes) : term := T ty [TStr x].
Definition opt_ident (x : option bytes) : tfield := TNode (option_map (named T_IDENTIFIER) x).
Definition opt_ex (x : option ex) : tfield := TNode (option_map ex_term x).
Definition props_term (p : props) : tfield :=
  TNode match p with
        | NoProps => None
        | MapProps es => Some (ex_term (EMap es))
        | ParamProps v => Some (ex_term (EParam v))
        end.
Definition node_term (n : npat) : term :=
  T T_NODE_PATTERN [opt_ident (n_name n); TList (map (named T_LABEL) (n_labels n)); props_term (n_props n)].
Definition bound (v : option bytes) : tfield := TNode (option_map (named T_INTEGER) v).
Definition steps_term (s : steps) : tfield :=
  TNode match s with
        | One => None
        | Any => Some (T T_RANGE [bound None; bound None])
        | Exactly v => Some (T T_RANGE [bound (Some v); bound (Some v)])
        | Between a b => Some (T T_RANGE [bound a; bound b])
        end.
Definition rel_term (r : rpat) : term :=
  T T_REL_PATTERN [TDir (r_dir r); opt_ident (r_name r); TList (map (named T_RELTYPE) (r_types r)); props_term (r_props r); steps_term (r_steps r)].
Definition path_term (n : npat) (ls : list (rpat * npat)) : term :=
  T T_PATTERN_PATH [TList (node_term n :: flat_map (fun x => [rel_term (fst x); node_term (snd x)]) ls)].
Definition shape_term (s : shape) (t : term) : term :=
  match s with
  | Plain => t
  | Shortest => T T_SHORTEST_PATH [TBool true; TNode (Some t)]
  | AllShortest => T T_SHORTEST_PATH [TBool false; TNode (Some t)]
  end.
Definition part_term (p : part) : term :=
  let t := shape_term (pt_shape p) (path_term (pt_node p) (pt_links p)) in
  match pt_name p with
  | None => t
  | Some x => T T_NAMED_PATH [ident x; TNode (Some t)]
  end.
Definition mhint_term (h : mhint) : term :=
  match h with
  | UseIndex x l p => T T_USING_INDEX [ident x; TNode (Some (named T_LABEL l)); TNode (Some (named T_PROP_NAME p))]
  | UseScan x l => T T_USING_SCAN [ident x; TNode (Some (named T_LABEL l))]
  | UseJoin xs => T T_USING_JOIN [TList (map (named T_IDENTIFIER) xs)]
  end.
Definition pattern_term (ps : list part) : tfield := TNode (Some (T T_PATTERN [TList (map part_term ps)])).

Definition prop_chain (x : bytes) (ps : list bytes) : ex := fold_left EProp ps (EIdent x).
Definition sitem_term (i : sitem) : term :=
  match i with
  | SetProp x ps e => T T_SET_PROPERTY [TNode (Some (ex_term (prop_chain x ps))); TNode (Some (ex_term e))]
  | SetAll x e => T T_SET_ALL_PROPERTIES [ident x; TNode (Some (ex_term e))]
  | MergeAll x e => T T_MERGE_PROPERTIES [ident x; TNode (Some (ex_term e))]
  | SetLabels x ls => T T_SET_LABELS [ident x; TList (map (named T_LABEL) ls)]
  end.
Definition ritem_term (i : ritem) : term :=
  match i with
  | RemProp x ps => T T_REMOVE_PROPERTY [TNode (Some (ex_term (prop_chain x ps)))]
  | RemLabels x ls => T T_REMOVE_LABELS [ident x; TList (map (named T_LABEL) ls)]
  end.
Definition return_proj (p : ex * option bytes) : term := T T_PROJECTION [TNode (Some (ex_term (fst p))); opt_ident (snd p)].
Definition with_proj (p : ex * option bytes) : term := T T_PROJECTION [TNode (Some (ex_term (fst p))); opt_ident (snd p)].
Definition call_proj (p : bytes * option bytes) : term := T T_PROJECTION [ident (fst p); opt_ident (snd p)].
Definition sort_term (o : ex * bool) : term := T T_SORT_ITEM [TNode (Some (ex_term (fst o))); TBool (snd o)].
Definition order_term (o : list (ex * bool)) : tfield :=
  TNode match o with [] => None | _ => Some (T T_ORDER_BY [TList (map sort_term o)]) end.
Definition act_term (a : bool * list sitem) : term :=
  T (if fst a then T_ON_CREATE else T_ON_MATCH) [TList (map sitem_term (snd a))].

Definition lookup_term (k : lookup) : term := match k with ByString v => named T_STRING v | ByParam v => ex_term (EParam v) end.
Definition spoint_term (p : spoint) : term :=
  let x := ident (sp_name p) in
  match sp_source p with
  | Lookup i q k => T (if sp_rel p then T_REL_INDEX_LOOKUP else T_NODE_INDEX_LOOKUP)
      [x; TNode (Some (named T_INDEX_NAME i)); TNode (Some (named T_PROP_NAME q)); TNode (Some (lookup_term k))]
  | Search i k => T (if sp_rel p then T_REL_INDEX_QUERY else T_NODE_INDEX_QUERY) [x; TNode (Some (named T_INDEX_NAME i)); TNode (Some (lookup_term k))]
  | Ids vs => T (if sp_rel p then T_REL_ID_LOOKUP else T_NODE_ID_LOOKUP) [x; TList (map (named T_INTEGER) vs)]
  | Everything => T (if sp_rel p then T_ALL_RELS_SCAN else T_ALL_NODES_SCAN) [x]
  end.

Fixpoint clause_term (c : clause) : term :=
  match c with
  | Match opt ps hs w => T T_MATCH [TBool opt; pattern_term ps; TList (map mhint_term hs); opt_ex w]
  | Start ps w => T T_START [TList (map spoint_term ps); opt_ex w]
  | Return d star ps o s l => T T_RETURN [TBool d; TBool star; TList (map return_proj ps); order_term o; opt_ex s; opt_ex l]
  | With d star ps o s l w => T T_WITH [TBool d; TBool star; TList (map with_proj ps); order_term o; opt_ex s; opt_ex l; opt_ex w]
  | Unwind e x => T T_UNWIND [TNode (Some (ex_term e)); ident x]
  | Merge p acts => T T_MERGE [TNode (Some (part_term p)); TList (map act_term acts)]
  | Create u ps => T T_CREATE [TBool u; pattern_term ps]
  | SetC is => T T_SET [TList (map sitem_term is)]
  | Delete d es => T T_DELETE [TBool d; TList (map ex_term es)]
  | Remove is => T T_REMOVE [TList (map ritem_term is)]
  | Foreach x e cs => T T_FOREACH [ident x; TNode (Some (ex_term e)); TList (map clause_term cs)]
  | Call f es ys w => T T_CALL [TNode (Some (named T_PROC_NAME f)); TList (map ex_term es); TList (map call_proj ys); opt_ex w]
  | LoadCsv h e x t => T T_LOAD_CSV [TBool h; TNode (Some (ex_term e)); ident x; TNode (option_map (named T_STRING) t)]
  | Union all => T T_UNION [TBool all]
  end.

(** ** Statements *)
Inductive option_ : Set := Explain | Profile
| Cypher (v : option (bytes * bytes)) (ps : list (bytes * bytes)).   (* CYPHER a.b n = x ... *)
(** ON (x:L), or ON ()-[x:T]-() with an arrow head at neither, either or both ends *)
Inductive on_what : Set := OnNode (l : bytes) | OnRel (left right : bool) (t : bytes).
Inductive body : Set :=
| Query (hs : list (option bytes)) (cs : list clause)             (* USING PERIODIC COMMIT n, and the clauses *)
| Index (create : bool) (l : bytes) (ps : list bytes)             (* CREATE or DROP INDEX ON :L(p, q) *)
| Constraint (create : bool) (w : on_what) (x : bytes) (e : ex) (unique : bool).
Record stmt : Set := mkstmt { s_opts : list option_; s_body : body }.

Definition version_text (v : bytes * bytes) : bytes := fst v ++ B "." ++ snd v.
Definition setting_term (p : bytes * bytes) : term := T T_CYPHER_OPTION_PARAM [TNode (Some (named T_STRING (fst p))); TNode (Some (named T_STRING (snd p)))].
Definition option_term (o : option_) : term :=
  match o with
  | Explain => T T_EXPLAIN_OPTION []
  | Profile => T T_PROFILE_OPTION []
  | Cypher v ps => T T_CYPHER_OPTION [TNode (option_map (fun v => named T_STRING (version_text v)) v); TList (map setting_term ps)]
  end.
Definition hint_term (v : option bytes) : term := T T_USING_PERIODIC_COMMIT [bound v].
Definition body_term (b : body) : term :=
  match b with
  | Query hs cs => T T_QUERY [TList (map hint_term hs); TList (map clause_term cs)]
  | Index c l ps => T (if c then T_CREATE_NODE_PROPS_INDEX else T_DROP_NODE_PROPS_INDEX) [TNode (Some (named T_LABEL l)); TList (map (named T_PROP_NAME) ps)]
  | Constraint c (OnNode l) x e u => T (if c then T_CREATE_NODE_PROP_CONSTRAINT else T_DROP_NODE_PROP_CONSTRAINT)
      [ident x; TNode (Some (named T_LABEL l)); TNode (Some (ex_term e)); TBool u]
  | Constraint c (OnRel _ _ t) x e u => T (if c then T_CREATE_REL_PROP_CONSTRAINT else T_DROP_REL_PROP_CONSTRAINT)
      [ident x; TNode (Some (named T_RELTYPE t)); TNode (Some (ex_term e)); TBool u]
  end.
Definition stmt_term (s : stmt) : term := T T_STATEMENT [TList (map option_term (s_opts s)); TNode (Some (body_term (s_body s)))].

(** ** The texts *)
Definition plain_name (x : bytes) : Prop := ~ In "`"%char x.
Definition digits (v : bytes) : Prop := v <> [] /\ all_in digit_chars v.
(** elements, with commas before all but the first *)
Inductive commas {A : Type} (P : A -> bytes -> Prop) : list A -> bytes -> Prop :=
| cm_none : commas P [] []
| cm_some : forall x u xs us, P x u -> commas P xs us -> commas P (x :: xs) ((B ", " ++ u) ++ us).
Inductive listed {A : Type} (P : A -> bytes -> Prop) : list A -> bytes -> Prop :=
| ls_all : forall x u xs us, P x u -> commas P xs us -> listed P (x :: xs) (u ++ us).
(** elements one after the other *)
Inductive chained {A : Type} (P : A -> bytes -> Prop) : list A -> bytes -> Prop :=
| ch_none : chained P [] []
| ch_some : forall x u xs us, P x u -> chained P xs us -> chained P (x :: xs) (u ++ us).
(** something that can be left out *)
Inductive maybe {A : Type} (w : bytes) (P : A -> bytes -> Prop) : option A -> bytes -> Prop :=
| mb_none : maybe w P None []
| mb_some : forall x u, P x u -> maybe w P (Some x) (w ++ u).

Inductive prints_name : bytes -> bytes -> Prop := pn_name : forall x, plain_name x -> prints_name x (name_text x).
Inductive prints_label : bytes -> bytes -> Prop := pn_label : forall x, plain_name x -> prints_label x (B ": " ++ name_text x).
Inductive prints_dot : bytes -> bytes -> Prop := pn_dot : forall x, plain_name x -> prints_dot x (B ". " ++ name_text x).
Inductive prints_props : props -> bytes -> Prop :=
| pp_none : prints_props NoProps []
| pp_map : forall es u, prints 14 (EMap es) u -> prints_props (MapProps es) u
| pp_param : forall v, plain_name v -> prints_props (ParamProps v) (B "$" ++ name_text v).
Inductive prints_node : npat -> bytes -> Prop :=
| pn_node : forall x ls p ux ul up, maybe [] prints_name x ux -> chained prints_label ls ul -> prints_props p up ->
    prints_node (mknp x ls p) (B "( " ++ ux ++ ul ++ up ++ B ")").
Inductive prints_bound : option bytes -> bytes -> Prop :=
| pb_none : prints_bound None []
| pb_some : forall v, digits v -> prints_bound (Some v) (v ++ B " ").
Inductive prints_steps : steps -> bytes -> Prop :=
| ps_one : prints_steps One []
| ps_any : prints_steps Any (B "* ")
| ps_exactly : forall v, digits v -> prints_steps (Exactly v) (B "* " ++ v ++ B " ")
| ps_between : forall a b ua ub, prints_bound a ua -> prints_bound b ub -> prints_steps (Between a b) (B "* " ++ ua ++ B ".. " ++ ub).
(** the first type with a colon, the others with or without *)
Inductive prints_type : bytes -> bytes -> Prop :=
| py_bare : forall x, plain_name x -> prints_type x (B "| " ++ name_text x)
| py_colon : forall x, plain_name x -> prints_type x (B "| : " ++ name_text x).
Inductive prints_types : list bytes -> bytes -> Prop :=
| pt_none : prints_types [] []
| pt_some : forall x xs us, plain_name x -> chained prints_type xs us -> prints_types (x :: xs) (B ": " ++ name_text x ++ us).
Definition heads (d : dir) : list (bytes * bytes) :=
  match d with
  | INBOUND => [(B "<-", B "-")]
  | OUTBOUND => [(B "-", B "->")]
  | BIDIRECTIONAL => [(B "-", B "-"); (B "<-", B "->")]
  end.
Inductive prints_rel : rpat -> bytes -> Prop :=
| pr_short : forall d a b, In (a, b) (heads d) -> prints_rel (mkrp d None [] One NoProps) (a ++ b)
| pr_full : forall d x ts s p a b ux ut us up, In (a, b) (heads d) ->
    maybe [] prints_name x ux -> prints_types ts ut -> prints_steps s us -> prints_props p up ->
    prints_rel (mkrp d x ts s p) (a ++ B "[ " ++ ux ++ ut ++ us ++ up ++ B "]" ++ b).
Inductive prints_link : rpat * npat -> bytes -> Prop :=
| pk_link : forall r n ur un, prints_rel r ur -> prints_node n un -> prints_link (r, n) (B " " ++ ur ++ B " " ++ un).
Inductive prints_path : npat -> list (rpat * npat) -> bytes -> Prop :=
| ph_path : forall n ls un us, prints_node n un -> chained prints_link ls us -> prints_path n ls (un ++ us).
Definition shape_head (s : shape) : bytes :=
  match s with Plain => [] | Shortest => B "shortestPath ( " | AllShortest => B "allShortestPaths ( " end.
Definition shape_tail (s : shape) : bytes := match s with Plain => [] | _ => B " )" end.
Inductive prints_part : part -> bytes -> Prop :=
| pp_part : forall x s n ls ux u, maybe [] (fun y v => exists v', prints_name y v' /\ v = v' ++ B "= ") x ux -> prints_path n ls u ->
    prints_part (mkpt x s n ls) (ux ++ shape_head s ++ u ++ shape_tail s).
(** no space before a comma *)
Definition prints_pattern (ps : list part) (u : bytes) : Prop := exists u', listed prints_part ps u' /\ u = u' ++ B " ".

(** no white space around it *)
Definition whites : bytes := [" "%char; "009"%char; "010"%char; "011"%char; "012"%char; "013"%char].
Definition trimmed (x : bytes) : Prop := (exists c y, x = c :: y /\ ~ In c whites) /\ (exists y c, x = y ++ [c] /\ ~ In c whites).
(** what RETURN gives has the name after AS; without AS, an identifier keeps its
    name and another expression has its own text, as written, for its name *)
Inductive prints_return_proj : ex * option bytes -> bytes -> Prop :=
| pj_return : forall e x u, prints 0 e u -> plain_name x -> prints_return_proj (e, Some x) (u ++ B "AS " ++ name_text x)
| pj_ident : forall v u, prints 0 (EIdent v) u -> prints_return_proj (EIdent v, None) u
| pj_bare : forall e x, prints 0 e (x ++ B " ") -> (forall v, e <> EIdent v) -> trimmed x -> prints_return_proj (e, Some x) (x ++ B " ").
Inductive prints_with_proj : ex * option bytes -> bytes -> Prop :=
| pj_with : forall e x u ux, prints 0 e u -> maybe (B "AS ") prints_name x ux -> prints_with_proj (e, x) (u ++ ux).
Inductive prints_call_proj : bytes * option bytes -> bytes -> Prop :=
| pj_call : forall f x ux, plain_name f -> maybe (B "AS ") prints_name x ux -> prints_call_proj (f, x) (name_text f ++ ux).
Inductive prints_sort : ex * bool -> bytes -> Prop :=
| po_sort : forall e a u w, prints 0 e u -> In (a, w) [(true, []); (true, B "ASC "); (true, B "ASCENDING "); (false, B "DESC "); (false, B "DESCENDING ")] ->
    prints_sort (e, a) (u ++ w).
Inductive prints_order : list (ex * bool) -> bytes -> Prop :=
| po_no : prints_order [] []
| po_by : forall o u, listed prints_sort o u -> prints_order o (B "ORDER BY " ++ u).
Inductive prints_sitem : sitem -> bytes -> Prop :=
| pi_prop : forall x ps e us u, plain_name x -> ps <> [] -> chained prints_dot ps us -> prints 0 e u ->
    prints_sitem (SetProp x ps e) (name_text x ++ us ++ B "= " ++ u)
| pi_all : forall x e u, plain_name x -> prints 0 e u -> prints_sitem (SetAll x e) (name_text x ++ B "= " ++ u)
| pi_merge : forall x e u, plain_name x -> prints 0 e u -> prints_sitem (MergeAll x e) (name_text x ++ B "+= " ++ u)
| pi_labels : forall x ls us, plain_name x -> ls <> [] -> chained prints_label ls us -> prints_sitem (SetLabels x ls) (name_text x ++ us).
Inductive prints_ritem : ritem -> bytes -> Prop :=
| pr_prop : forall x ps us, plain_name x -> ps <> [] -> chained prints_dot ps us -> prints_ritem (RemProp x ps) (name_text x ++ us)
| pr_labels : forall x ls us, plain_name x -> ls <> [] -> chained prints_label ls us -> prints_ritem (RemLabels x ls) (name_text x ++ us).
Inductive prints_act : bool * list sitem -> bytes -> Prop :=
| pc_act : forall b is u, listed prints_sitem is u -> prints_act (b, is) ((if b then B "ON CREATE SET " else B "ON MATCH SET ") ++ u).

(** [star] and the projections: [*], [* , p, q] or [p, q] *)
Inductive prints_projs {A : Type} (P : A -> bytes -> Prop) : bool -> list A -> bytes -> Prop :=
| px_star : forall ps u, commas P ps u -> prints_projs P true ps (B "* " ++ u)
| px_list : forall ps u, listed P ps u -> prints_projs P false ps u.

(** no parentheses are needed when there is no argument *)
Inductive prints_args : list ex -> bytes -> Prop :=
| pg_none : prints_args [] []
| pg_empty : prints_args [] (B "( ) ")
| pg_some : forall es u, listed (prints 0) es u -> prints_args es (B "( " ++ u ++ B ") ").

Inductive prints_mhint : mhint -> bytes -> Prop :=
| pm_index : forall x l p, plain_name x -> plain_name l -> plain_name p ->
    prints_mhint (UseIndex x l p) (B "USING INDEX " ++ name_text x ++ B ": " ++ name_text l ++ B "( " ++ name_text p ++ B ") ")
| pm_scan : forall x l, plain_name x -> plain_name l -> prints_mhint (UseScan x l) (B "USING SCAN " ++ name_text x ++ B ": " ++ name_text l)
| pm_join : forall xs u, listed prints_name xs u -> prints_mhint (UseJoin xs) (B "USING JOIN ON " ++ u).
Inductive prints_lookup : lookup -> bytes -> Prop :=
| pl_string : forall u v, quoted_text u v -> prints_lookup (ByString v) (u ++ B " ")
| pl_param : forall v, plain_name v -> prints_lookup (ByParam v) (B "$" ++ name_text v).
Inductive prints_id : bytes -> bytes -> Prop := pi_id : forall v, digits v -> prints_id v (v ++ B " ").
Inductive prints_source : source -> bytes -> Prop :=
| ps_lookup : forall i p k u, plain_name i -> plain_name p -> prints_lookup k u ->
    prints_source (Lookup i p k) (B ": " ++ name_text i ++ B "( " ++ name_text p ++ B "= " ++ u ++ B ")")
| ps_search : forall i k u, plain_name i -> prints_lookup k u -> prints_source (Search i k) (B ": " ++ name_text i ++ B "( " ++ u ++ B ")")
| ps_ids : forall vs u, listed prints_id vs u -> prints_source (Ids vs) (B "( " ++ u ++ B ")")
| ps_all : prints_source Everything (B "( * )").
Definition source_words (r : bool) : list bytes := if r then [B "rel "; B "relationship "] else [B "node "].
Inductive prints_spoint : spoint -> bytes -> Prop :=
| pz_point : forall x (r : bool) s w u, plain_name x -> In w (source_words r) -> prints_source s u ->
    prints_spoint (mksp x r s) (name_text x ++ B "= " ++ w ++ u ++ B " ").

Inductive prints_clause : clause -> bytes -> Prop :=
| pc_match : forall (o : bool) ps hs w u uh uw, prints_pattern ps u -> chained prints_mhint hs uh -> maybe (B "WHERE ") (prints 0) w uw ->
    prints_clause (Match o ps hs w) ((if o then B "OPTIONAL MATCH " else B "MATCH ") ++ u ++ uh ++ uw)
| pc_start : forall ps w u uw, listed prints_spoint ps u -> maybe (B "WHERE ") (prints 0) w uw ->
    prints_clause (Start ps w) (B "START " ++ u ++ uw)
| pc_return : forall d star ps o s l u uo us ul, prints_projs prints_return_proj star ps u -> prints_order o uo ->
    maybe (B "SKIP ") (prints 0) s us -> maybe (B "LIMIT ") (prints 0) l ul ->
    prints_clause (Return d star ps o s l) (B "RETURN " ++ distinct_text d ++ u ++ uo ++ us ++ ul)
| pc_with : forall d star ps o s l w u uo us ul uw, prints_projs prints_with_proj star ps u -> prints_order o uo ->
    maybe (B "SKIP ") (prints 0) s us -> maybe (B "LIMIT ") (prints 0) l ul -> maybe (B "WHERE ") (prints 0) w uw ->
    prints_clause (With d star ps o s l w) (B "WITH " ++ distinct_text d ++ u ++ uo ++ us ++ ul ++ uw)
| pc_unwind : forall e x u, prints 0 e u -> plain_name x -> prints_clause (Unwind e x) (B "UNWIND " ++ u ++ B "AS " ++ name_text x)
| pc_merge : forall p acts u us, prints_part p u -> chained prints_act acts us -> prints_clause (Merge p acts) (B "MERGE " ++ u ++ B " " ++ us)
| pc_create : forall (q : bool) ps u, prints_pattern ps u -> prints_clause (Create q ps) ((if q then B "CREATE UNIQUE " else B "CREATE ") ++ u)
| pc_set : forall is u, listed prints_sitem is u -> prints_clause (SetC is) (B "SET " ++ u)
| pc_delete : forall (d : bool) es u, listed (prints 0) es u -> prints_clause (Delete d es) ((if d then B "DETACH DELETE " else B "DELETE ") ++ u)
| pc_remove : forall is u, listed prints_ritem is u -> prints_clause (Remove is) (B "REMOVE " ++ u)
| pc_foreach : forall x e cs u us, plain_name x -> prints 0 e u -> prints_clauses cs us ->
    prints_clause (Foreach x e cs) (B "FOREACH ( " ++ name_text x ++ B "IN " ++ u ++ B "| " ++ us ++ B ") ")
| pc_call : forall f es ys w ua uy uw, plain_name f -> prints_args es ua -> maybe (B "YIELD ") (listed prints_call_proj) ys uy ->
    maybe (B "WHERE ") (prints 0) w uw ->
    prints_clause (Call f es (match ys with Some ys => ys | None => [] end) w) (B "CALL " ++ name_text f ++ ua ++ uy ++ uw)
| pc_call_dash : forall f es w ua uw, plain_name f -> prints_args es ua -> maybe (B "WHERE ") (prints 0) w uw ->
    prints_clause (Call f es [] w) (B "CALL " ++ name_text f ++ ua ++ B "YIELD - " ++ uw)
| pc_load : forall (h : bool) e x t u ut, prints 0 e u -> plain_name x ->
    maybe (B "FIELDTERMINATOR ") (fun v z => exists z', quoted_text z' v /\ z = z' ++ B " ") t ut ->
    prints_clause (LoadCsv h e x t) ((if h then B "LOAD CSV WITH HEADERS FROM " else B "LOAD CSV FROM ") ++ u ++ B "AS " ++ name_text x ++ ut)
| pc_union : forall all : bool, prints_clause (Union all) (if all then B "UNION ALL " else B "UNION ")
(** at least one *)
with prints_clauses : list clause -> bytes -> Prop :=
| pcs_last : forall c u, prints_clause c u -> prints_clauses [c] u
| pcs_more : forall c u cs us, prints_clause c u -> prints_clauses cs us -> prints_clauses (c :: cs) (u ++ us).

Definition setting_text (p : bytes * bytes) : bytes := fst p ++ B " = " ++ snd p.
Definition option_text (o : option_) : bytes :=
  match o with
  | Explain => B "EXPLAIN "
  | Profile => B "PROFILE "
  | Cypher v ps => B "CYPHER" ++ match v with Some v => B " " ++ version_text v | None => [] end ++ flat_map (fun p => B " " ++ setting_text p) ps ++ B " "
  end.
(** a name of letters, digits and underscores that a digit does not start, and a
    value without white space that a slash does not start *)
Definition setting_starts : bytes := B "abcdefghijklmnopqrstuvwxyzABCDEFGHIJKLMNOPQRSTUVWXYZ_".
Definition setting_chars : bytes := B "abcdefghijklmnopqrstuvwxyzABCDEFGHIJKLMNOPQRSTUVWXYZ0123456789_".
Definition blanks : bytes := [" "%char; "009"%char; "010"%char; "013"%char].
Definition good_setting (p : bytes * bytes) : Prop :=
  (exists c n, fst p = c :: n /\ In c setting_starts /\ all_in setting_chars n) /\
  (exists c x, snd p = c :: x /\ c <> "/"%char) /\ (forall c, In c (snd p) -> ~ In c blanks).
Definition good_option (o : option_) : Prop :=
  match o with
  | Cypher v ps => match v with Some (a, b) => digits a /\ digits b | None => True end /\ (forall p, In p ps -> good_setting p)
  | _ => True
  end.
Inductive prints_option : option_ -> bytes -> Prop := po_option : forall o, good_option o -> prints_option o (option_text o).
Inductive prints_hint : option bytes -> bytes -> Prop :=
| pu_hint : forall v u, prints_bound v u -> prints_hint v (B "USING PERIODIC COMMIT " ++ u).
Inductive prints_on : on_what -> bytes -> bytes -> Prop :=
| pw_node : forall l x, plain_name l -> plain_name x -> prints_on (OnNode l) x (B "( " ++ name_text x ++ B ": " ++ name_text l ++ B ") ")
| pw_rel : forall a b t x, plain_name t -> plain_name x ->
    prints_on (OnRel a b t) x (B "( ) " ++ (if a then B "< - " else B "- ") ++ B "[ " ++ name_text x ++ B ": " ++ name_text t ++ B "] " ++
      (if b then B "- > " else B "- ") ++ B "( ) ").
Definition verb (create : bool) : bytes := if create then B "CREATE " else B "DROP ".
Inductive prints_body : body -> bytes -> Prop :=
| py_query : forall hs cs uh us, chained prints_hint hs uh -> prints_clauses cs us -> prints_body (Query hs cs) (uh ++ us)
| py_index : forall c l ps us, plain_name l -> listed prints_name ps us ->
    prints_body (Index c l ps) (verb c ++ B "INDEX ON : " ++ name_text l ++ B "( " ++ us ++ B ") ")
| py_constraint : forall c w x e q uw u, prints_on w x uw -> prints 0 e u -> (q = true -> exists l, w = OnNode l) ->
    prints_body (Constraint c w x e q) (verb c ++ B "CONSTRAINT ON " ++ uw ++ B "ASSERT " ++ u ++ (if q then B "IS UNIQUE " else [])).

Inductive prints_stmt : stmt -> bytes -> Prop :=
| py_stmt : forall os b uo ub, chained prints_option os uo -> prints_body b ub -> prints_stmt (mkstmt os b) (uo ++ ub ++ B ";").
