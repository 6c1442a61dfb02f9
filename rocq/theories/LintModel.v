(** * cypher-lint

    Model of linter/src/cypher-lint.c.  Not modelled: getopt_long (the options are given as it
    returns them), isatty (whether the two outputs are terminals is given), fopen and strerror
    (each file is given as its bytes, or as the reason it cannot be opened), failing allocations
    and failing output.  What the two outputs receive is recorded in order. *)
From Coq Require Import List Bool Arith ZArith Ascii String.
From Verif Require Import Peg QuickModel ErrModel AstModel CypherParse SourceModel DetailModel PrintModel.
Import ListNotations.

(** parser_config.c:44-53: the pairs used for printing ASTs *)
Definition ac_ansi : ast_coloring :=
  mkac ([], []) (ansi "[36m", ansi "[0m") (ansi "[33m", ansi "[0m") (ansi "[1m", ansi "[0m") ([], []).

(** something is written to one of the outputs *)
Inductive event : Set :=
| Out (s : bytes)                    (* to stdout *)
| Err (s : bytes).                   (* to stderr *)

(** what a function does: it returns after writing, or the process ends in an assertion or
    in undefined behaviour *)
Inductive lrun (V : Type) : Type :=
| Done (l : list event) (v : V)
| Dies.
Arguments Done {V} l v.
Arguments Dies {V}.

Definition lbind {V W} (r : lrun V) (f : V -> lrun W) : lrun W :=
  match r with
  | Dies => Dies
  | Done l v => match f v with Dies => Dies | Done l' w => Done (l ++ l') w end
  end.

(** cypher-lint.c:77-85 struct lint_config *)
Record lint_config := mklc {
  lc_width : nat;
  lc_flags : pflags;
  lc_dump : bool;
  lc_color_out : bool;
  lc_color_err : bool;
  lc_stream : bool }.

(** the fresh memory and log10(0), on which the printing of trees may depend; the capacity of the
    buffer of cypher_ast_fprintv is that of [mem_buf].  Simplified: every call gets memory of the
    same contents. *)
Record memory := mkmem { mem_lz : nat; mem_junk : ascii; mem_buf : bytes }.

Definition EOLN : bytes := ["010"%char].

(** cypher-lint.c:408-418 print_error.  fprintf's "%s" writes up to the first NUL; passing it
    NULL is undefined.  "%*.*s" of " " with the same width and precision is that many blanks. *)
Definition print_error (filename : option bytes) (e : perror) : lrun unit :=
  match pe_ctx e with
  | None => Dies
  | Some (context, off) =>
      Done [Err (match filename with Some f => f | None => B "<stdin>" end ++ B ":" ++
                 dec (line (pe_pos e)) ++ B ":" ++ dec (column (pe_pos e)) ++ B ": " ++
                 cstr (pe_msg e) ++ EOLN);
            Err (cstr context ++ EOLN ++ padl off (firstn off (B " ")) ++ B "^" ++ EOLN)] tt
  end.

(** the loop over the errors: cypher-lint.c:341-346, 376-381 *)
Fixpoint print_errors (filename : option bytes) (es : list perror) : lrun nat :=
  match es with
  | [] => Done [] 0
  | e :: es =>
      lbind (print_error filename e) (fun _ =>
      lbind (print_errors filename es) (fun n => Done [] (S n)))
  end.

Section Lint.
Variable mem : memory.

Definition output_color (c : lint_config) : ast_coloring := if lc_color_out c then ac_ansi else ac_none.

(** segment.c:172-179, result.c:156-163: both print a list of trees to stdout *)
Definition print_ast (c : lint_config) (roots : list node) : lrun unit :=
  match fprintv (mem_lz mem) (mem_junk mem) (forest_ord roots) (output_color c) (lc_width c) roots (mem_buf mem) with
  | None => Dies
  | Some s => Done [Out s] tt
  end.

(** cypher-lint.c:335-358 parse_callback; the number of errors *)
Definition parse_callback (c : lint_config) (filename : option bytes) (s : segment) : lrun nat :=
  lbind (print_errors filename (s_errors s)) (fun n =>
  if lc_dump c then lbind (print_ast c (s_roots s)) (fun _ => Done [] n) else Done [] n).

(** the callback is called for each segment, and answers 0 *)
Fixpoint callbacks (c : lint_config) (filename : option bytes) (l : list segment) (nerrors : nat) : lrun nat :=
  match l with
  | [] => Done [] nerrors
  | s :: l => lbind (parse_callback c filename s) (fun n => callbacks c filename l (nerrors + n))
  end.

(** cypher-lint.c:268-298 process: cypher_parser_new_config copies the standard configuration *)
Definition parser_config (c : lint_config) : config :=
  mkcf position_zero 0 (if lc_color_err c then ansi_colorization else no_colorization).

(** cypher-lint.c:311-332 process_streamed.  Simplified: what is written before the process dies is
    not recorded, nor the reason of a failed parse. *)
Definition process_streamed (c : lint_config) (filename : option bytes) (stream : bytes) : lrun Z :=
  match cypher_fparse_each (parser_config c) (fun _ => 0%Z) (lc_flags c) stream with
  | PRet 0%Z segs _ =>
      lbind (callbacks c filename segs 0) (fun n => Done [] (if Nat.eqb n 0 then 0 else 1)%Z)
  | PRet _ _ _ => Done [Err (B "cypher_fparse_each: ")] (-1)%Z
  | _ => Dies
  end.

(** parser.c:573-580 cypher_fparse, 701-726 parse_all_callback: NULL if the parse fails *)
Definition cypher_fparse (cf : config) (fl : pflags) (stream : bytes) : presult_all :=
  match cypher_fparse_each cf (fun _ => 0%Z) fl stream with
  | PRet 0%Z segs last => ARes (fold_left merge_segment segs result0) last
  | PRet _ _ _ => ANone
  | p => ABad p
  end.

(** cypher-lint.c:361-405 process_all *)
Definition process_all (c : lint_config) (filename : option bytes) (stream : bytes) : lrun Z :=
  match cypher_fparse (parser_config c) (lc_flags c) stream with
  | ANone => Done [Err (B "cypher_fparse: ")] (-1)%Z
  | ABad _ => Dies
  | ARes r _ =>
      lbind (print_errors filename (pr_errors r)) (fun _ =>
      lbind (if lc_dump c then
               lbind (match filename with Some f => Done [Out (f ++ B ":" ++ EOLN)] tt | None => Done [] tt end)
                     (fun _ => print_ast c (pr_roots r))
             else Done [] tt) (fun _ =>
      Done [] (match pr_errors r with [] => 0 | _ => 1 end)%Z))
  end.

(** cypher-lint.c:268-298 *)
Definition process (c : lint_config) (filename : option bytes) (stream : bytes) : lrun Z :=
  if lc_stream c then process_streamed c filename stream else process_all c filename stream.

(** an argument that is not an option: "-", with what is left of stdin, or the name of a file, with its
    bytes or why it cannot be opened *)
Inductive arg : Set :=
| AStdin (stream : bytes)
| AFile (name : bytes) (stream : bytes)
| AMissing (name : bytes) (why : bytes).

(** cypher-lint.c:220-252: the loop over the arguments; [err]: cypher-lint.c:222.  The exit status. *)
Fixpoint process_files (prog : bytes) (c : lint_config) (l : list arg) (err : Z) : lrun nat :=
  match l with
  | [] => Done [] (if Z.eqb err 0 then 0 else 1)
  | AStdin stream :: l =>
      lbind (process c (Some (B "<stdin>")) stream) (fun res => process_files prog c l (Z.lor err res))
  | AMissing name why :: _ => Done [Err (prog ++ B ": " ++ name ++ B ": " ++ why ++ EOLN)] 1
  | AFile name stream :: l =>
      lbind (process c (Some name) stream) (fun res =>
      if (res <? 0)%Z then Done [] 1 else process_files prog c l (Z.lor err res))
  end.

(** the options as returned by getopt_long (cypher-lint.c:30-52) *)
Inductive lint_opt : Set :=
| LSingle | LAst | LColor | LNoColor | LHelp | LOnlyStatements | LWidth (n : nat) | LStream | LVersion
| LUnknown.                            (* '?', or 'v', which has no case *)

(** cypher-lint.c:168-210: [inl]: the configuration; [inr]: the process exits *)
Fixpoint options (usage version : bytes) (l : list lint_opt) (c : lint_config) : lint_config + (list event * nat) :=
  match l with
  | [] => inl c
  | LSingle :: l => options usage version l (mklc (lc_width c) (mkpf true (pf_only_statements (lc_flags c)))
        (lc_dump c) (lc_color_out c) (lc_color_err c) (lc_stream c))
  | LAst :: l => options usage version l (mklc (lc_width c) (lc_flags c) true (lc_color_out c) (lc_color_err c) (lc_stream c))
  | LColor :: l => options usage version l (mklc (lc_width c) (lc_flags c) (lc_dump c) true true (lc_stream c))
  | LNoColor :: l => options usage version l (mklc (lc_width c) (lc_flags c) (lc_dump c) false false (lc_stream c))
  | LHelp :: _ => inr ([Out usage], 0)
  | LOnlyStatements :: l => options usage version l (mklc (lc_width c) (mkpf (pf_single (lc_flags c)) true)
        (lc_dump c) (lc_color_out c) (lc_color_err c) (lc_stream c))
  | LWidth n :: l => options usage version l (mklc n (lc_flags c) (lc_dump c) (lc_color_out c) (lc_color_err c) (lc_stream c))
  | LStream :: l => options usage version l (mklc (lc_width c) (lc_flags c) (lc_dump c) (lc_color_out c) (lc_color_err c) true)
  | LVersion :: _ => inr ([Out version], 0)
  | LUnknown :: _ => inr ([Err usage], 1)
  end.

(** cypher-lint.c:214-218: always streaming without a dump *)
Definition settle (c : lint_config) : lint_config :=
  mklc (lc_width c) (lc_flags c) (lc_dump c) (lc_color_out c) (lc_color_err c)
       (if lc_dump c then lc_stream c else true).

(** cypher-lint.c:142-265 main; [stdin]: for a run without arguments *)
Definition lint_main (prog usage version : bytes) (tty_out tty_err : bool) (opts : list lint_opt)
    (args : list arg) (stdin : bytes) : lrun nat :=
  match options usage version opts (mklc 0 (mkpf false false) false tty_out tty_err false) with
  | inr (l, status) => Done l status
  | inl c =>
      match args with
      | [] => lbind (process (settle c) None stdin) (fun res => Done [] (if Z.eqb res 0 then 0 else 1))
      | _ => process_files prog (settle c) args 0
      end
  end.

End Lint.
