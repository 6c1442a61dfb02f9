(** * Specification vocabulary: what literals and names denote *)
From Coq Require Import List Bool Arith Ascii String.
From Verif Require Import Peg QuickModel CypherSyntax CypherGrammar ErrModel CypherMatch AstTypes AstModel
  CypherExec CypherParse CypherSpec TraceSpec.
Import ListNotations.

(** ** Strings *)
(** the character that a backslash and [c] stand for *)
Definition escape (c : ascii) : option ascii :=
  match c with
  | "a" => Some "007" | "b" => Some "008" | "f" => Some "012" | "n" => Some "010"
  | "r" => Some "013" | "t" => Some "009" | "v" => Some "011"
  | "\" => Some "\" | "'" => Some "'" | """" => Some """" | "?" => Some "?"
  | _ => None
  end%char.

(** What the text between two quotes [q] denotes.  A backslash before any other
    character denotes itself.  [None]: an unescaped quote, or a backslash at the
    end (which would escape the closing quote). *)
Fixpoint decode (q : ascii) (u : bytes) : option bytes :=
  match u with
  | [] => Some []
  | c :: v =>
      if Ascii.eqb c "\" then
        match v with
        | [] => None
        | d :: w =>
            match escape d with
            | Some x => option_map (cons x) (decode q w)
            | None => option_map (cons c) (decode q v)
            end
        end
      else if Ascii.eqb c q then None
      else option_map (cons c) (decode q v)
  end.

Definition is_quote (c : ascii) : Prop := c = "'"%char \/ c = """"%char.

(** [u] is a quoted string that denotes [t] *)
Definition quoted_text (u t : bytes) : Prop :=
  exists q body, is_quote q /\ u = q :: body ++ [q] /\ decode q body = Some t.

(** a word of a client command: escapes, quoted parts and plain characters *)
Definition plain_char (c : ascii) : Prop :=
  ~ In c ["'"; """"; " "; "009"; "010"; "\"; ";"]%char.
Inductive word_text : bytes -> bytes -> Prop :=
| wt_nil : word_text [] []
| wt_char : forall c u t, plain_char c -> word_text u t -> word_text (c :: u) (c :: t)
| wt_esc : forall c x u t, escape c = Some x -> word_text u t -> word_text ("\"%char :: c :: u) (x :: t)
| wt_semi : forall u t, word_text u t -> word_text ("\" :: ";" :: u)%char (";"%char :: t)
| wt_quoted : forall v u s t, quoted_text v s -> word_text u t -> word_text (v ++ u) (s ++ t).

(** ** Names and numbers *)
Definition digit_chars : bytes := B "0123456789".
Definition start_chars : bytes := B "abcdefghijklmnopqrstuvwxyzABCDEFGHIJKLMNOPQRSTUVWXYZ_".
Definition part_chars : bytes := B "abcdefghijklmnopqrstuvwxyzABCDEFGHIJKLMNOPQRSTUVWXYZ0123456789_$".
Definition all_in (cs u : bytes) : Prop := forall c, In c u -> In c cs.

(** a name, plain or between backquotes *)
Definition name_text (u t : bytes) : Prop :=
  (u = t /\ exists c v, t = c :: v /\ In c start_chars /\ all_in part_chars v) \/
  (u = "`"%char :: t ++ ["`"%char] /\ ~ In "`"%char t).

Definition number_text (u t : bytes) : Prop :=
  u = t /\ exists c v, t = c :: v /\ In c digit_chars /\ all_in part_chars v.

Definition opt (cs u : bytes) : Prop := u = [] \/ exists c, u = [c] /\ In c cs.
Definition float_text (u t : bytes) : Prop :=
  u = t /\
  ((exists c a dot b e sign d v, t = c :: a ++ dot ++ b ++ e :: sign ++ d :: v /\
      all_in digit_chars (c :: a) /\ opt (B ".") dot /\ all_in digit_chars b /\ In e (B "eE") /\
      opt (B "-+") sign /\ In d digit_chars /\ all_in part_chars v) \/
   (exists a d v, t = a ++ "."%char :: d :: v /\
      all_in digit_chars a /\ In d digit_chars /\ all_in part_chars v)).

(** white space and comments *)
Inductive gap : bytes -> Prop :=
| gap_nil : gap []
| gap_blank : forall c u, In c [" "; "009"; "010"; "013"]%char -> gap u -> gap (c :: u)
| gap_line : forall v u, ~ In "010"%char v -> (u = [] \/ exists w, u = "010"%char :: w) -> gap u -> gap (B "//" ++ v ++ u)
| gap_block : forall v u, (forall x y, v ++ B "*" <> x ++ B "*/" ++ y) -> gap u -> gap (B "/*" ++ v ++ B "*/" ++ u).

(** a name after a colon *)
Definition colon_text (u t : bytes) : Prop :=
  exists w v, u = ":"%char :: w ++ v /\ gap w /\ name_text v t.

(** a parameter: [$name] or [{name}]; the name can be a number *)
Definition param_name_text (u t : bytes) : Prop :=
  name_text u t \/ (u = t /\ exists c v, t = c :: v /\ In c (B "123456789") /\ all_in digit_chars v).
Definition param_text (u t : bytes) : Prop :=
  exists w v, gap w /\ param_name_text v t /\
    (u = "$"%char :: w ++ v \/ exists w2, gap w2 /\ u = "{"%char :: w ++ v ++ w2 ++ ["}"%char]).

(** names with dots between them *)
Inductive dotted_text : bytes -> bytes -> Prop :=
| dt_one : forall u t, name_text u t -> dotted_text u t
| dt_dot : forall u t w1 w2 v s, name_text u t -> gap w1 -> gap w2 -> dotted_text v s ->
    dotted_text (u ++ w1 ++ B "." ++ w2 ++ v) (t ++ B "." ++ s).

(** ** Leaves *)
(** type, text, first byte, end *)
Definition leaf := (asttype * bytes * nat * nat)%type.

Definition leaf_type (t : asttype) : bool :=
  match t with
  | T_STRING | T_INTEGER | T_FLOAT | T_IDENTIFIER | T_PARAMETER | T_LABEL | T_RELTYPE | T_PROP_NAME
  | T_FUNCTION_NAME | T_INDEX_NAME | T_PROC_NAME => true
  | _ => false
  end.
Definition is_leaf (n : node) : bool := leaf_type (nty n).
Definition leaf_view (n : node) : leaf :=
  (nty n, text_of n, offset (r_start (nrng n)), offset (r_end (nrng n))).
Definition leaf_at (k : nat) (x : leaf) : leaf := let '(ty, t, p, e) := x in (ty, t, k + p, k + e).

(** one node: from [p] to [e], followed by white space and comments up to [q] *)
Definition one_leaf (ty : asttype) (shape : bytes -> bytes -> Prop) (inp : bytes) (p q : nat) (l : list leaf) : Prop :=
  exists e t, p <= e <= q /\ shape (slice inp p e) t /\ gap (slice inp e q) /\ l = [(ty, t, p, e)].

(** [t] is [u] without the white space around it *)
Definition space_chars : bytes := [" "; "009"; "010"; "011"; "012"; "013"]%char.
Definition trimmed (u t : bytes) : Prop :=
  exists a b, u = a ++ t ++ b /\ all_in space_chars a /\ all_in space_chars b /\
    (forall c v, t = c :: v -> ~ In c space_chars) /\ (forall c v, t = v ++ [c] -> ~ In c space_chars).

Definition as_is (u t : bytes) : Prop := u = t /\ u <> [].

(** the leaves that a use of a rule, from [p] to [q], gives by itself *)
Definition leaves_of (inp : bytes) (v : rule * nat * nat) (l : list leaf) : Prop :=
  let '(r, p, q) := v in
  match r with
  | R_string_literal => one_leaf T_STRING quoted_text inp p q l
  | R_client_arg_string => one_leaf T_STRING word_text inp p q l
  | R_cypher_version | R_cypher_param_name | R_cypher_param_val => one_leaf T_STRING as_is inp p q l
  | R_integer_literal => one_leaf T_INTEGER number_text inp p q l
  | R_float_literal => one_leaf T_FLOAT float_text inp p q l
  | R_identifier => one_leaf T_IDENTIFIER name_text inp p q l
  | R_parameter => one_leaf T_PARAMETER param_text inp p q l
  | R_label => one_leaf T_LABEL colon_text inp p q l
  | R_rel_type => one_leaf T_RELTYPE colon_text inp p q l
  | R_rel_type_name => one_leaf T_RELTYPE name_text inp p q l
  | R_prop_name => one_leaf T_PROP_NAME name_text inp p q l
  | R_index_name => one_leaf T_INDEX_NAME name_text inp p q l
  | R_function_name => one_leaf T_FUNCTION_NAME dotted_text inp p q l
  | R_proc_name => one_leaf T_PROC_NAME dotted_text inp p q l
  | R_return_projection =>            (* the name of a projection without AS, from its text *)
      l = [] \/ exists t, p <= q /\ trimmed (slice inp p q) t /\ l = [(T_IDENTIFIER, t, p, q)]
  | _ => l = []
  end.

(** the text of a leaf that is not a string, from its input *)
Definition leaf_shape (ty : asttype) (u t : bytes) : Prop :=
  match ty with
  | T_INTEGER => number_text u t
  | T_FLOAT => float_text u t
  | T_IDENTIFIER => name_text u t \/ trimmed u t       (* the latter: the name of a projection without AS *)
  | T_PARAMETER => param_text u t
  | T_LABEL => colon_text u t
  | T_RELTYPE => colon_text u t \/ name_text u t
  | T_PROP_NAME | T_INDEX_NAME => name_text u t
  | T_FUNCTION_NAME | T_PROC_NAME => dotted_text u t
  | _ => True
  end.

(** [n] is over the bytes from [p] to [e] of the input *)
Definition covers (k : nat) (n : node) (p e : nat) : Prop :=
  p <= e /\ offset (r_start (nrng n)) = k + p /\ offset (r_end (nrng n)) = k + e.
