(** * Specification: scripts of statements and client commands *)
From Coq Require Import List Bool Arith Ascii String.
From Verif Require Import Peg QuickModel ErrModel CypherSyntax AstTypes AstModel CypherParse LexSpec TermSpec ExprSpec StmtSpec StmtShow CommandSpec.
Import ListNotations.

(** ** Statements and client commands *)
Inductive entry :=
| Statement (s : stmt)
| Command (n : bytes) (args : list bytes).
Definition entry_term (e : entry) : term := match e with Statement s => stmt_term s | Command n args => command_term n args end.
Inductive prints_entry : entry -> bytes -> Prop :=
| pe_statement : forall s u, prints_stmt s u -> prints_entry (Statement s) u
| pe_command : forall n args u, prints_command n args u -> prints_entry (Command n args) u.
(** with CYPHER_PARSE_ONLY_STATEMENTS there are no client commands *)
Definition allowed (fl : pflags) (e : entry) : Prop := pf_only_statements fl = true -> exists s, e = Statement s.

(** ** Scripts: statements and commands with white space in between, and empty statements *)
(** blanks, tabs, line feeds, and carriage returns followed by line feeds *)
Inductive white : bytes -> Prop :=
| wh_none : white []
| wh_char : forall c u, In c [" "; "009"; "010"]%char -> white u -> white (c :: u)
| wh_crlf : forall u, white u -> white ("013"%char :: "010"%char :: u).
Inductive prints_script : list entry -> bytes -> Prop :=
| ps_end : forall g, white g -> prints_script [] g
| ps_entry : forall g e u es us, white g -> prints_entry e u -> prints_script es us -> prints_script (e :: es) (g ++ u ++ us)
| ps_empty : forall g es us, white g -> prints_script es us -> prints_script es (g ++ B ";" ++ us).

(** one text: the statements and commands, each followed by a blank *)
Definition entry_line (e : entry) : bytes :=
  match e with Statement s => stmt_text s | Command n args => B ":" ++ flat_map (fun v => quote v ++ B " ") (n :: args) ++ B ";" end.
Definition script_text (es : list entry) : bytes := flat_map (fun e => entry_line e ++ B " ") es.
Definition good_entry (e : entry) : Prop := match e with Statement s => good_stmt s | Command _ _ => True end.

(** ** What a segment says *)
Definition terms_of (s : segment) : list term := map term_of (s_roots s).
Definition has_directive (s : segment) : bool := match s_directive s with Some _ => true | None => false end.
(** no error, and at most one root, which is the directive *)
Definition clean (s : segment) : Prop :=
  s_errors s = [] /\ s_directive s = hd_error (map nid (s_roots s)) /\ List.length (s_roots s) <= 1.
