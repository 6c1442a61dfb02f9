(** * Specification: client commands *)
From Coq Require Import List Bool Arith Ascii String.
From Verif Require Import Peg QuickModel CypherSyntax AstTypes LexSpec TermSpec ExprSpec StmtSpec.
Import ListNotations.

(** a command is a name and its arguments, all strings *)
Definition command_term (n : bytes) (args : list bytes) : term :=
  T T_COMMAND [TNode (Some (named T_STRING n)); TList (map (named T_STRING) args)].

(** ** Texts *)
(** A word is made of parts: plain bytes that stand for themselves (any but quotes,
    blanks, tabs, line ends, backslashes, slashes and semicolons), escapes, semicolons
    after a backslash and quoted parts. *)
Definition word_ends : bytes := ["'"; """"; " "; "009"; "010"; "013"; "\"; "/"; ";"]%char.
Inductive spells : bytes -> bytes -> Prop :=
| sp_none : spells [] []
| sp_plain : forall c v u, ~ In c word_ends -> spells v u -> spells (c :: v) (c :: u)
| sp_escape : forall c x v u, escape c = Some x -> spells v u -> spells (x :: v) ("\"%char :: c :: u)
| sp_semi : forall v u, spells v u -> spells (";"%char :: v) ("\" :: ";" :: u)%char
| sp_quoted : forall w q v u, quoted_text q w -> spells v u -> spells (w ++ v) (q ++ u).
Definition prints_word (v u : bytes) : Prop := u <> [] /\ spells v u.
(** blanks and tabs *)
Definition blanks (g : bytes) : Prop := forall c, In c g -> c = " "%char \/ c = "009"%char.
(** a semicolon or the end of the line ends a command *)
Definition line_ends : list bytes := [["010"%char]; ["013"%char; "010"%char]].
Definition ending (e : bytes) : Prop := In e (B ";" :: line_ends).
(** Words with blanks between them, and perhaps after the last.  A backslash at the end of
    a line lets them go on in the next. *)
Inductive prints_words : list bytes -> bytes -> Prop :=
| pws_none : prints_words [] []
| pws_last : forall v u, prints_word v u -> prints_words [v] u
| pws_more : forall v u g vs us, prints_word v u -> blanks g -> g <> [] -> prints_words vs us -> prints_words (v :: vs) (u ++ g ++ us)
| pws_line : forall g e g' vs us, blanks g -> In e line_ends -> blanks g' -> prints_words vs us ->
    prints_words vs ((B "\" ++ g ++ e ++ g') ++ us).
Inductive prints_command : bytes -> list bytes -> bytes -> Prop :=
| pm_bare : forall n g u e, blanks g -> prints_word n u -> ending e -> prints_command n [] (B ":" ++ g ++ u ++ e)
| pm_command : forall n args g u g' ua e, blanks g -> prints_word n u -> blanks g' -> g' <> [] -> prints_words args ua -> ending e ->
    prints_command n args (B ":" ++ g ++ (u ++ g') ++ ua ++ e).
