(** * Specification vocabulary for cypher-lint

    From the model: what is written to the outputs, the arguments and the options. *)
From Coq Require Import List Bool Arith ZArith Ascii String.
From Verif Require Import Peg QuickModel ErrModel AstModel CypherParse SourceModel DetailModel PrintModel PrintSpec AccessSpec LintModel.
Import ListNotations.

(** what each of the outputs receives *)
Definition to_stdout (l : list event) : bytes := flat_map (fun e => match e with Out s => s | Err _ => [] end) l.
Definition to_stderr (l : list event) : bytes := flat_map (fun e => match e with Err s => s | Out _ => [] end) l.

(** what cypher_fparse_each delivers for the input, with the standard configuration but for the colors *)
Definition parses (color : coloring) (fl : pflags) (input : bytes) (segs : list segment) : Prop :=
  exists last, cypher_fparse_each (mkcf (mkpos 1 1 0) 0 color) (fun _ => 0%Z) fl input = PRet 0 segs last.

Definition errors_of (segs : list segment) : list perror := flat_map s_errors segs.

Definition NLb : bytes := ["010"%char].

(** name:line:column: message, the context, and a caret under its [off]th character *)
Definition report (name : bytes) (e : perror) : bytes :=
  match pe_ctx e with
  | Some (context, off) =>
      name ++ B ":" ++ dec (line (pe_pos e)) ++ B ":" ++ dec (column (pe_pos e)) ++ B ": " ++ pe_msg e ++ NLb ++
      c_string context ++ NLb ++ blanks off ++ B "^" ++ NLb
  | None => []
  end.

Definition colors (c : lint_config) : coloring := if lc_color_err c then ansi_colorization else no_colorization.

(** arguments: what they are called in reports, and what is in them *)
Definition arg_name (a : arg) : bytes :=
  match a with AStdin _ => B "<stdin>" | AFile name _ | AMissing name _ => name end.
Definition arg_input (a : arg) : option bytes :=
  match a with AStdin s | AFile _ s => Some s | AMissing _ _ => None end.

(** an argument can be read, and its parse has no errors *)
Definition faultless (c : lint_config) (a : arg) : Prop :=
  exists input segs, arg_input a = Some input /\ parses (colors c) (lc_flags c) input segs /\ errors_of segs = [].

(** what is written to stderr for the arguments: the reports about each, up to the first that cannot be
    opened, and then why *)
Inductive reported (prog : bytes) (c : lint_config) : list arg -> bytes -> Prop :=
| rep_end : reported prog c [] []
| rep_missing : forall name why l,
    reported prog c (AMissing name why :: l) (prog ++ B ": " ++ name ++ B ": " ++ why ++ NLb)
| rep_read : forall a input segs l rest, arg_input a = Some input ->
    parses (colors c) (lc_flags c) input segs -> reported prog c l rest ->
    reported prog c (a :: l) (flat_map (report (arg_name a)) (errors_of segs) ++ rest).

(** without arguments, stdin is read *)
Definition inputs (args : list arg) (stdin : bytes) : list arg :=
  match args with [] => [AStdin stdin] | _ => args end.

(** ** Dumps *)

(** [text] is what is printed for these trees *)
Definition tree_text (mem : memory) (c : lint_config) (roots : list node) (text : bytes) : Prop :=
  fprintv (mem_lz mem) (mem_junk mem) (forest_ord roots) (if lc_color_out c then ac_ansi else ac_none)
    (lc_width c) roots (mem_buf mem) = Some text.

(** the trees of an input: segment by segment, or all at once under its name *)
Definition dump (mem : memory) (c : lint_config) (name : option bytes) (segs : list segment) (text : bytes) : Prop :=
  if lc_stream c then exists ts, Forall2 (fun s t => tree_text mem c (s_roots s) t) segs ts /\ text = List.concat ts
  else exists t, tree_text mem c (flat_map s_roots segs) t /\
         text = match name with Some n => n ++ B ":" ++ NLb | None => [] end ++ t.

(** [named]: inputs have names, i.e. there are arguments *)
Inductive dumps (mem : memory) (c : lint_config) (named : bool) : list arg -> bytes -> Prop :=
| dump_end : dumps mem c named [] []
| dump_missing : forall name why l, dumps mem c named (AMissing name why :: l) []
| dump_read : forall a input segs l t rest, arg_input a = Some input ->
    parses (colors c) (lc_flags c) input segs ->
    dump mem c (if named then Some (arg_name a) else None) segs t -> dumps mem c named l rest ->
    dumps mem c named (a :: l) (t ++ rest).

(** ** Options *)

Definition ends_run (o : lint_opt) : bool := match o with LHelp | LVersion | LUnknown => true | _ => false end.

(** the last of the options for which [f] has a value decides *)
Fixpoint last_of {X} (f : lint_opt -> option X) (default : X) (l : list lint_opt) : X :=
  match l with
  | [] => default
  | o :: l => last_of f (match f o with Some x => x | None => default end) l
  end.

Definition given (x : lint_opt -> bool) (l : list lint_opt) : bool := existsb x l.

(** the configuration of a run with these options *)
Definition configured (tty_out tty_err : bool) (l : list lint_opt) : lint_config :=
  let color := fun o => match o with LColor => Some true | LNoColor => Some false | _ => None end in
  let ast := given (fun o => match o with LAst => true | _ => false end) l in
  mklc (last_of (fun o => match o with LWidth n => Some n | _ => None end) 0 l)
       (mkpf (given (fun o => match o with LSingle => true | _ => false end) l)
             (given (fun o => match o with LOnlyStatements => true | _ => false end) l))
       ast (last_of color tty_out l) (last_of color tty_err l)
       (negb ast || given (fun o => match o with LStream => true | _ => false end) l).
