(** * Specification: one text for each statement *)
From Coq Require Import List Bool Arith Ascii String.
From Verif Require Import Peg QuickModel CypherSyntax AstTypes LexSpec TermSpec ExprSpec StmtSpec.
Import ListNotations.

(** ** The text *)
Definition some_text {A : Type} (w : bytes) (f : A -> bytes) (x : option A) : bytes := match x with Some y => w ++ f y | None => [] end.
Definition label_text (x : bytes) : bytes := B ": " ++ name_text x.
Definition props_text (p : props) : bytes :=
  match p with NoProps => [] | MapProps es => show 14 (EMap es) | ParamProps v => B "$" ++ name_text v end.
Definition node_text (n : npat) : bytes :=
  B "( " ++ some_text [] name_text (n_name n) ++ flat_map label_text (n_labels n) ++ props_text (n_props n) ++ B ")".
Definition bound_text (v : option bytes) : bytes := some_text [] (fun v => v ++ B " ") v.
Definition steps_text (s : steps) : bytes :=
  match s with
  | One => []
  | Any => B "* "
  | Exactly v => B "* " ++ v ++ B " "
  | Between a b => B "* " ++ bound_text a ++ B ".. " ++ bound_text b
  end.
Definition types_text (ts : list bytes) : bytes :=
  match ts with [] => [] | x :: xs => B ": " ++ name_text x ++ flat_map (fun y => B "| " ++ name_text y) xs end.
Definition rel_text (r : rpat) : bytes :=
  (match r_dir r with INBOUND => B "<-" | _ => B "-" end) ++
  B "[ " ++ some_text [] name_text (r_name r) ++ types_text (r_types r) ++ steps_text (r_steps r) ++ props_text (r_props r) ++ B "]" ++
  (match r_dir r with OUTBOUND => B "->" | _ => B "-" end).
Definition link_text (l : rpat * npat) : bytes := B " " ++ rel_text (fst l) ++ B " " ++ node_text (snd l).
Definition part_text (p : part) : bytes :=
  some_text [] (fun x => name_text x ++ B "= ") (pt_name p) ++ shape_head (pt_shape p) ++
  (node_text (pt_node p) ++ flat_map link_text (pt_links p)) ++ shape_tail (pt_shape p).
Definition pattern_text (ps : list part) : bytes := all_text part_text ps ++ B " ".
Definition dots_text (ps : list bytes) : bytes := flat_map (fun p => B ". " ++ name_text p) ps.
Definition sitem_text (i : sitem) : bytes :=
  match i with
  | SetProp x ps e => name_text x ++ dots_text ps ++ B "= " ++ show 0 e
  | SetAll x e => name_text x ++ B "= " ++ show 0 e
  | MergeAll x e => name_text x ++ B "+= " ++ show 0 e
  | SetLabels x ls => name_text x ++ flat_map label_text ls
  end.
Definition ritem_text (i : ritem) : bytes :=
  match i with RemProp x ps => name_text x ++ dots_text ps | RemLabels x ls => name_text x ++ flat_map label_text ls end.
Definition return_proj_text (p : ex * option bytes) : bytes := show 0 (fst p) ++ some_text (B "AS ") name_text (snd p).
Definition with_proj_text (p : ex * option bytes) : bytes := show 0 (fst p) ++ some_text (B "AS ") name_text (snd p).
Definition call_proj_text (p : bytes * option bytes) : bytes := name_text (fst p) ++ some_text (B "AS ") name_text (snd p).
Definition sort_text (o : ex * bool) : bytes := show 0 (fst o) ++ (if snd o then [] else B "DESC ").
Definition order_text (o : list (ex * bool)) : bytes := match o with [] => [] | _ => B "ORDER BY " ++ all_text sort_text o end.
Definition act_text (a : bool * list sitem) : bytes :=
  (if fst a then B "ON CREATE SET " else B "ON MATCH SET ") ++ all_text sitem_text (snd a).
Definition projs_text {A : Type} (f : A -> bytes) (star : bool) (ps : list A) : bytes :=
  if star then B "* " ++ more_text f ps else all_text f ps.
Definition args_text (es : list ex) : bytes := match es with [] => B "( ) " | _ => B "( " ++ all_text (show 0) es ++ B ") " end.
Definition yield_text (ys : list (bytes * option bytes)) : bytes := match ys with [] => [] | _ => B "YIELD " ++ all_text call_proj_text ys end.
Definition mhint_text (h : mhint) : bytes :=
  match h with
  | UseIndex x l p => B "USING INDEX " ++ name_text x ++ B ": " ++ name_text l ++ B "( " ++ name_text p ++ B ") "
  | UseScan x l => B "USING SCAN " ++ name_text x ++ B ": " ++ name_text l
  | UseJoin xs => B "USING JOIN ON " ++ all_text name_text xs
  end.
Definition lookup_text (k : lookup) : bytes := match k with ByString v => quote v ++ B " " | ByParam v => B "$" ++ name_text v end.
Definition source_text (s : source) : bytes :=
  match s with
  | Lookup i p k => B ": " ++ name_text i ++ B "( " ++ name_text p ++ B "= " ++ lookup_text k ++ B ")"
  | Search i k => B ": " ++ name_text i ++ B "( " ++ lookup_text k ++ B ")"
  | Ids vs => B "( " ++ all_text (fun v => v ++ B " ") vs ++ B ")"
  | Everything => B "( * )"
  end.
Definition spoint_text (p : spoint) : bytes :=
  name_text (sp_name p) ++ B "= " ++ (if sp_rel p then B "rel " else B "node ") ++ source_text (sp_source p) ++ B " ".
Fixpoint clause_text (c : clause) : bytes :=
  match c with
  | Match o ps hs w => (if o then B "OPTIONAL MATCH " else B "MATCH ") ++ pattern_text ps ++ flat_map mhint_text hs ++ some_text (B "WHERE ") (show 0) w
  | Start ps w => B "START " ++ all_text spoint_text ps ++ some_text (B "WHERE ") (show 0) w
  | Return d star ps o s l => B "RETURN " ++ distinct_text d ++ projs_text return_proj_text star ps ++ order_text o ++
      some_text (B "SKIP ") (show 0) s ++ some_text (B "LIMIT ") (show 0) l
  | With d star ps o s l w => B "WITH " ++ distinct_text d ++ projs_text with_proj_text star ps ++ order_text o ++
      some_text (B "SKIP ") (show 0) s ++ some_text (B "LIMIT ") (show 0) l ++ some_text (B "WHERE ") (show 0) w
  | Unwind e x => B "UNWIND " ++ show 0 e ++ B "AS " ++ name_text x
  | Merge p acts => B "MERGE " ++ part_text p ++ B " " ++ flat_map act_text acts
  | Create u ps => (if u then B "CREATE UNIQUE " else B "CREATE ") ++ pattern_text ps
  | SetC is => B "SET " ++ all_text sitem_text is
  | Delete d es => (if d then B "DETACH DELETE " else B "DELETE ") ++ all_text (show 0) es
  | Remove is => B "REMOVE " ++ all_text ritem_text is
  | Foreach x e cs => B "FOREACH ( " ++ name_text x ++ B "IN " ++ show 0 e ++ B "| " ++ flat_map clause_text cs ++ B ") "
  | Call f es ys w => B "CALL " ++ name_text f ++ args_text es ++ yield_text ys ++ some_text (B "WHERE ") (show 0) w
  | LoadCsv h e x t => (if h then B "LOAD CSV WITH HEADERS FROM " else B "LOAD CSV FROM ") ++ show 0 e ++ B "AS " ++ name_text x ++
      some_text (B "FIELDTERMINATOR ") (fun v => quote v ++ B " ") t
  | Union all => if all then B "UNION ALL " else B "UNION "
  end.
Definition hint_text (v : option bytes) : bytes := B "USING PERIODIC COMMIT " ++ bound_text v.
Definition on_text (w : on_what) (x : bytes) : bytes :=
  match w with
  | OnNode l => B "( " ++ name_text x ++ B ": " ++ name_text l ++ B ") "
  | OnRel a b t => B "( ) " ++ (if a then B "< - " else B "- ") ++ B "[ " ++ name_text x ++ B ": " ++ name_text t ++ B "] " ++
      (if b then B "- > " else B "- ") ++ B "( ) "
  end.
Definition body_text (b : body) : bytes :=
  match b with
  | Query hs cs => flat_map hint_text hs ++ flat_map clause_text cs
  | Index c l ps => verb c ++ B "INDEX ON : " ++ name_text l ++ B "( " ++ all_text name_text ps ++ B ") "
  | Constraint c w x e q => verb c ++ B "CONSTRAINT ON " ++ on_text w x ++ B "ASSERT " ++ show 0 e ++ (if q then B "IS UNIQUE " else [])
  end.
Definition stmt_text (s : stmt) : bytes := flat_map option_text (s_opts s) ++ body_text (s_body s) ++ B ";".

(** ** The statements that have one
    Names can be quoted, expressions can be written without the texts that are
    read in another way, and what the language requires one of is not empty. *)
Definition good_ex (e : ex) : Prop := well_formed e /\ clear 0 e.
Definition opt_good {A : Type} (f : A -> Prop) (x : option A) : Prop := match x with Some y => f y | None => True end.
Definition good_props (p : props) : Prop :=
  match p with NoProps => True | MapProps es => well_formed (EMap es) /\ clear 14 (EMap es) | ParamProps v => plain_name v end.
Definition good_node (n : npat) : Prop := opt_good plain_name (n_name n) /\ all_all plain_name (n_labels n) /\ good_props (n_props n).
Definition good_steps (s : steps) : Prop :=
  match s with One | Any => True | Exactly v => digits v | Between a b => opt_good digits a /\ opt_good digits b end.
Definition good_rel (r : rpat) : Prop :=
  opt_good plain_name (r_name r) /\ all_all plain_name (r_types r) /\ good_steps (r_steps r) /\ good_props (r_props r).
Definition good_part (p : part) : Prop :=
  opt_good plain_name (pt_name p) /\ good_node (pt_node p) /\ all_all (fun l => good_rel (fst l) /\ good_node (snd l)) (pt_links p).
Definition good_list {A : Type} (f : A -> Prop) (l : list A) : Prop := l <> [] /\ all_all f l.
Definition good_sitem (i : sitem) : Prop :=
  match i with
  | SetProp x ps e => plain_name x /\ good_list plain_name ps /\ good_ex e
  | SetAll x e | MergeAll x e => plain_name x /\ good_ex e
  | SetLabels x ls => plain_name x /\ good_list plain_name ls
  end.
Definition good_ritem (i : ritem) : Prop := match i with RemProp x l | RemLabels x l => plain_name x /\ good_list plain_name l end.
Definition good_projs {A : Type} (f : A -> Prop) (star : bool) (ps : list A) : Prop := (star = false -> ps <> []) /\ all_all f ps.
Definition good_return_proj (p : ex * option bytes) : Prop :=
  good_ex (fst p) /\ match snd p with Some x => plain_name x | None => exists v, fst p = EIdent v end.
Definition good_order (o : list (ex * bool)) : Prop := all_all (fun x => good_ex (fst x)) o.
Definition good_mhint (h : mhint) : Prop :=
  match h with
  | UseIndex x l p => plain_name x /\ plain_name l /\ plain_name p
  | UseScan x l => plain_name x /\ plain_name l
  | UseJoin xs => good_list plain_name xs
  end.
Definition good_lookup (k : lookup) : Prop := match k with ByString _ => True | ByParam v => plain_name v end.
Definition good_spoint (p : spoint) : Prop :=
  plain_name (sp_name p) /\
  match sp_source p with
  | Lookup i q k => plain_name i /\ plain_name q /\ good_lookup k
  | Search i k => plain_name i /\ good_lookup k
  | Ids vs => good_list digits vs
  | Everything => True
  end.
Fixpoint good_clause (c : clause) : Prop :=
  match c with
  | Match _ ps hs w => good_list good_part ps /\ all_all good_mhint hs /\ opt_good good_ex w
  | Start ps w => good_list good_spoint ps /\ opt_good good_ex w
  | Return _ star ps o s l => good_projs good_return_proj star ps /\ good_order o /\ opt_good good_ex s /\ opt_good good_ex l
  | With _ star ps o s l w => good_projs (fun p => good_ex (fst p) /\ opt_good plain_name (snd p)) star ps /\ good_order o /\
      opt_good good_ex s /\ opt_good good_ex l /\ opt_good good_ex w
  | Unwind e x => good_ex e /\ plain_name x
  | Merge p acts => good_part p /\ all_all (fun a => good_list good_sitem (snd a)) acts
  | Create _ ps => good_list good_part ps
  | SetC is => good_list good_sitem is
  | Delete _ es => good_list good_ex es
  | Remove is => good_list good_ritem is
  | Foreach x e cs => plain_name x /\ good_ex e /\ cs <> [] /\ all_all good_clause cs
  | Call f es ys w => plain_name f /\ all_all good_ex es /\ all_all (fun y => plain_name (fst y) /\ opt_good plain_name (snd y)) ys /\ opt_good good_ex w
  | LoadCsv _ e x _ => good_ex e /\ plain_name x
  | Union _ => True
  end.
Definition good_on (w : on_what) : Prop := match w with OnNode l => plain_name l | OnRel _ _ t => plain_name t end.
Definition good_body (b : body) : Prop :=
  match b with
  | Query hs cs => all_all (opt_good digits) hs /\ good_list good_clause cs
  | Index _ l ps => plain_name l /\ good_list plain_name ps
  | Constraint _ w x e q => good_on w /\ plain_name x /\ good_ex e /\ (q = true -> exists l, w = OnNode l)
  end.
Definition good_stmt (s : stmt) : Prop := all_all good_option (s_opts s) /\ good_body (s_body s).
