(** * Specification of quick parsing, independent of the grammar machine

    Nothing here mentions rules, thunks or fuel.  Only the byte constants, the
    [position] record and the [qsegment] record come from QuickModel.v. *)
From Verif Require Import Peg QuickModel.

(** ** Positions: walking over bytes *)
Definition step_position (p : position) (c : ascii) : position :=
  if beq c NL then mkpos (S (line p)) 1 (S (offset p))
  else mkpos (line p) (S (column p)) (S (offset p)).

(** the position reached from [p] after the bytes [w] *)
Definition walk (p : position) (w : bytes) : position := fold_left step_position w p.

(** ** Tokens of the input *)

(** bytes up to and including the first newline (or all of them) *)
Fixpoint through_nl (s : bytes) : nat :=
  match s with
  | [] => 0
  | c :: r => if beq c NL then 1 else S (through_nl r)
  end.

(** bytes up to and including the first [*/], if there is one *)
Fixpoint through_close (s : bytes) : option nat :=
  match s with
  | [] => None
  | c :: r =>
      match r with
      | [] => None
      | d :: _ =>
          if beq c "*" && beq d "/" then Some 2
          else match through_close r with Some n => Some (S n) | None => None end
      end
  end.

(** the characters that a backslash escapes *)
Definition escapes : bytes := B "abfnrtv""'?\".

(** bytes up to and including the first unescaped [q] (or all of them) *)
Fixpoint through_quote (q : ascii) (s : bytes) : nat :=
  match s with
  | [] => 0
  | c :: r =>
      if beq c q then 1 else
      match r with
      | [] => 1
      | d :: r' =>
          if beq c BSL && in_class escapes d then S (S (through_quote q r'))
          else S (through_quote q r)
      end
  end.

Definition is_quote (c : ascii) : bool := beq c SQ || beq c DQ.

(** Length of the first token of [s]: a line comment with its newline, a block
    comment (unclosed: the rest of the input), a quoted string (unclosed: the
    rest of the input), an escape pair, or a single byte. *)
Definition tok (s : bytes) : nat :=
  match s with
  | [] => 0
  | c :: r =>
      if is_quote c then S (through_quote c r) else
      match r with
      | [] => 1
      | d :: r' =>
          if beq c "/" && beq d "/" then 2 + through_nl r'
          else if beq c "/" && beq d "*" then
            match through_close r' with Some n => 2 + n | None => List.length s end
          else if beq c BSL && in_class escapes d then 2
          else 1
      end
  end.

(** [statement_extent s k]: the statement at the start of [s] occupies [k]
    bytes including its terminator, which is the first semicolon that is a
    token of its own - i.e. outside strings, comments and escapes - or the end
    of the input. *)
Inductive statement_extent : bytes -> nat -> Prop :=
| se_eof : statement_extent [] 0
| se_semi : forall r, statement_extent (SEMI :: r) 1
| se_tok : forall c r k, c <> SEMI ->
    statement_extent (skipn (tok (c :: r)) (c :: r)) k ->
    statement_extent (c :: r) (tok (c :: r) + k).

(** Does the extent end in a semicolon? *)
Inductive statement_terminated : bytes -> Prop :=
| st_semi : forall r, statement_terminated (SEMI :: r)
| st_tok : forall c r, c <> SEMI ->
    statement_terminated (skipn (tok (c :: r)) (c :: r)) ->
    statement_terminated (c :: r).

(** Is a line comment / a closed block comment at the start of [s]? *)
Definition starts_line_comment (s : bytes) : bool :=
  match s with c :: d :: _ => beq c "/" && beq d "/" | _ => false end.
Definition starts_block_comment (s : bytes) : bool :=
  match s with
  | c :: d :: r => beq c "/" && beq d "*" &&
      match through_close r with Some _ => true | None => false end
  | _ => false
  end.
(** a newline, or carriage return and newline *)
Definition starts_eol (s : bytes) : bool :=
  match s with
  | c :: r => beq c NL || (beq c CR && match r with d :: _ => beq d NL | [] => false end)
  | [] => false
  end.
Definition starts_hspace (s : bytes) : bool :=
  match s with c :: _ => beq c SPC || beq c TAB | [] => false end.

(** [blanks s k]: the maximal run of spaces, tabs, line ends and (closed)
    comments at the start of [s] is [k] bytes long. *)
Inductive blanks : bytes -> nat -> Prop :=
| bl_stop : forall s,
    starts_hspace s = false -> starts_eol s = false ->
    starts_line_comment s = false -> starts_block_comment s = false ->
    blanks s 0
| bl_space : forall c r k, starts_hspace (c :: r) = true -> blanks r k ->
    blanks (c :: r) (S k)
| bl_nl : forall r k, blanks r k -> blanks (NL :: r) (S k)
| bl_crnl : forall r k, blanks r k -> blanks (CR :: NL :: r) (S (S k))
| bl_comment : forall s k,
    starts_line_comment s = true \/ starts_block_comment s = true ->
    blanks (skipn (tok s) s) k -> blanks s (tok s + k).

(** only blanks separate the start of [s] from a semicolon *)
Definition semi_after_blanks (s : bytes) : Prop :=
  exists j r, blanks s j /\ skipn j s = SEMI :: r.

(** [statement_text s k]: the text of the statement at the start of [s] has
    [k] bytes: it ends at the first token boundary, not followed directly by a
    comment, from which only blanks precede a semicolon (or at the end). *)
Inductive statement_text : bytes -> nat -> Prop :=
| tx_eof : statement_text [] 0
| tx_end : forall s, starts_line_comment s = false -> starts_block_comment s = false ->
    semi_after_blanks s -> statement_text s 0
| tx_tok : forall c r k,
    starts_line_comment (c :: r) = true \/ starts_block_comment (c :: r) = true \/
      ~ semi_after_blanks (c :: r) ->
    statement_text (skipn (tok (c :: r)) (c :: r)) k ->
    statement_text (c :: r) (tok (c :: r) + k).

(** same, without line ends and line comments *)
Inductive hblanks : bytes -> nat -> Prop :=
| hb_stop : forall s,
    starts_hspace s = false -> starts_block_comment s = false -> hblanks s 0
| hb_space : forall c r k, starts_hspace (c :: r) = true -> hblanks r k ->
    hblanks (c :: r) (S k)
| hb_comment : forall s k, starts_block_comment s = true ->
    hblanks (skipn (tok s) s) k -> hblanks s (tok s + k).

(** ** Client commands: a colon, up to an unescaped semicolon or line end *)

(** end of the line at the start of [s]: its length, if there is one *)
Definition line_end_len (s : bytes) : option nat :=
  if starts_line_comment s then Some (tok s)
  else match s with
       | [] => Some 0
       | c :: r => if beq c NL then Some 1
                   else if starts_eol s then Some 2 else None
       end.

(** a backslash that is not the first half of an escape *)
Definition lone_backslash (s : bytes) : bool :=
  match s with
  | [] => false
  | c :: r => beq c BSL &&
      match r with [] => true | d :: _ => negb (in_class escapes d) && negb (beq d SEMI) end
  end.

Definition starts_escaped_semi (s : bytes) : bool :=
  match s with c :: d :: _ => beq c BSL && beq d SEMI | _ => false end.

(** [command_extent cont s k t]: the text of a client command at the start of
    [s], with its terminator, occupies [k] bytes; [t] tells whether it has a
    terminator (a semicolon or a newline) as opposed to running to the end of
    the input.  [cont]: only blanks separate [s] from a preceding backslash,
    so that the next line end does not terminate the command. *)
Inductive command_extent : bool -> bytes -> nat -> bool -> Prop :=
| ce_eof : forall cont, command_extent cont [] 0 false
| ce_semi : forall cont r, command_extent cont (SEMI :: r) 1 true
| ce_line : forall s k, s <> [] -> line_end_len s = Some k ->
    command_extent false s k (beq (nth (k - 1) s SPC) NL)
| ce_continue : forall s k n t, s <> [] -> line_end_len s = Some k ->
    command_extent false (skipn k s) n t -> command_extent true s (k + n) t
| ce_blank : forall cont s n t, starts_hspace s || starts_block_comment s = true ->
    command_extent cont (skipn (tok s) s) n t -> command_extent cont s (tok s + n) t
| ce_escaped : forall cont r n t, command_extent false r n t ->
    command_extent cont (BSL :: SEMI :: r) (2 + n) t
| ce_tok : forall cont c r n t, c <> SEMI -> line_end_len (c :: r) = None ->
    starts_hspace (c :: r) || starts_block_comment (c :: r) = false ->
    starts_escaped_semi (c :: r) = false ->
    command_extent (lone_backslash (c :: r)) (skipn (tok (c :: r)) (c :: r)) n t ->
    command_extent cont (c :: r) (tok (c :: r) + n) t.

(** only (horizontal) blanks separate the start of [s] from the end of its line *)
Definition line_end_after_blanks (s : bytes) : Prop :=
  exists j t, hblanks s j /\ line_end_len (skipn j s) = Some t.

(** [command_text cont s k]: the text of a command (after its colon) has [k]
    bytes: it ends at the first token boundary that is at a semicolon, or, not
    followed directly by a comment, from which only blanks precede the end of
    the line.  [cont] as for [command_extent]. *)
Inductive command_text : bool -> bytes -> nat -> Prop :=
| ct_eof : forall cont, command_text cont [] 0
| ct_semi : forall cont r, command_text cont (SEMI :: r) 0
| ct_end : forall s, starts_block_comment s = false -> line_end_after_blanks s ->
    command_text false s 0
| ct_continue : forall s k n, s <> [] -> line_end_len s = Some k ->
    command_text false (skipn k s) n -> command_text true s (k + n)
| ct_blank : forall cont s n, starts_hspace s || starts_block_comment s = true ->
    cont = true \/ starts_block_comment s = true \/ ~ line_end_after_blanks s ->
    command_text cont (skipn (tok s) s) n -> command_text cont s (tok s + n)
| ct_escaped : forall cont r n, command_text false r n ->
    command_text cont (BSL :: SEMI :: r) (2 + n)
| ct_tok : forall cont c r n, c <> SEMI -> line_end_len (c :: r) = None ->
    starts_hspace (c :: r) || starts_block_comment (c :: r) = false ->
    starts_escaped_semi (c :: r) = false ->
    command_text (lone_backslash (c :: r)) (skipn (tok (c :: r)) (c :: r)) n ->
    command_text cont (c :: r) (tok (c :: r) + n).

(** ** Segments *)

(** [tiles o segs n]: the segments lie one after the other in [o, n): each
    one's text lies between the end of its predecessor and its own [next], and
    each moves forward. *)
Inductive tiles : nat -> list qsegment -> nat -> Prop :=
| tl_nil : forall o, tiles o [] o
| tl_cons : forall o seg segs n,
    o <= offset (qs_start seg) <= offset (qs_end seg) ->
    offset (qs_end seg) <= offset (qs_next seg) ->
    o < offset (qs_next seg) ->
    tiles (offset (qs_next seg)) segs n ->
    tiles o (seg :: segs) n.

(** [terminator st s k eof]: [s] starts with [k] bytes of blanks followed by
    one terminator: a semicolon, for a command also the end of the line, or the
    end of the input (in which case [eof]). *)
Definition statement_terminator (s : bytes) (k : nat) (eof : bool) : Prop :=
  (eof = true /\ s = [] /\ k = 0) \/
  (eof = false /\ exists j r, blanks s j /\ skipn j s = SEMI :: r /\ k = j + 1).
Definition command_terminator (s : bytes) (k : nat) (eof : bool) : Prop :=
  exists j t, hblanks s j /\ k = j + t /\
    ((eof = false /\ t = 1 /\ exists r, skipn j s = SEMI :: r) \/
     (line_end_len (skipn j s) = Some t /\
      (eof = false <-> 1 <= t /\ nth_error (skipn j s) (t - 1) = Some NL))).

(** [statement_segment inp o seg]: [seg] is the statement at offset [o] of [inp] *)
Definition statement_segment (inp : bytes) (o : nat) (seg : qsegment) : Prop :=
  let b := offset (qs_start seg) in
  let e := offset (qs_end seg) in
  let n := offset (qs_next seg) in
  qs_is_statement seg = true /\
  o <= b <= e /\ e <= n <= List.length inp /\
  blanks (skipn o inp) (b - o) /\
  statement_text (skipn b inp) (e - b) /\
  statement_terminator (skipn e inp) (n - e) (qs_eof seg) /\
  statement_extent (skipn o inp) (n - o) /\
  (qs_eof seg = false <-> statement_terminated (skipn o inp)).

(** same, for a client command *)
Definition command_segment (inp : bytes) (o : nat) (seg : qsegment) : Prop :=
  let b := offset (qs_start seg) in
  let e := offset (qs_end seg) in
  let n := offset (qs_next seg) in
  qs_is_statement seg = false /\
  o <= b < e /\ e <= n <= List.length inp /\
  blanks (skipn o inp) (b - o) /\
  command_text false (skipn (S b) inp) (e - S b) /\
  command_terminator (skipn e inp) (n - e) (qs_eof seg) /\
  command_extent false (skipn (S b) inp) (n - S b) (negb (qs_eof seg)).

(** The first byte after the blanks decides what a segment is. *)
Definition at_colon (inp : bytes) (seg : qsegment) : Prop :=
  nth_error inp (offset (qs_start seg)) = Some COLON.

(** [splits only inp o segs]: [segs] are the segments of [inp] from offset [o] on *)
Inductive splits (only : bool) (inp : bytes) : nat -> list qsegment -> Prop :=
| sp_end : splits only inp (List.length inp) []
| sp_seg : forall o seg segs, o < List.length inp ->
    (if only then statement_segment inp o seg
     else (at_colon inp seg /\ command_segment inp o seg) \/
          (~ at_colon inp seg /\ statement_segment inp o seg)) ->
    (qs_eof seg = true -> offset (qs_next seg) = List.length inp) ->
    splits only inp (offset (qs_next seg)) segs ->
    splits only inp o (seg :: segs).

(** token boundaries of [s] *)
Inductive boundary : bytes -> nat -> Prop :=
| bd_start : forall s, boundary s 0
| bd_tok : forall s k, s <> [] -> boundary (skipn (tok s) s) k -> boundary s (tok s + k).

(** The position reached by moving from [p] along a text at whose end a parse
    that began at line 1, column 1, offset 0 would be at [q]. *)
Definition translate (p q : position) : position :=
  mkpos (line p + line q - 1)
        (if Nat.eqb (line q) 1 then column p + column q - 1 else column q)
        (offset p + offset q).
Definition translate_segment (p : position) (seg : qsegment) : qsegment :=
  mkqseg (qs_is_statement seg) (qs_text seg) (translate p (qs_start seg))
         (translate p (qs_end seg)) (translate p (qs_next seg)) (qs_eof seg).

(** Blanks or a complete comment at the start of a text. *)
Definition leading_blank (s : bytes) : bool :=
  starts_hspace s || starts_eol s || starts_line_comment s || starts_block_comment s.
(** A space, a tab or a newline at the end of a text. *)
Definition trailing_blank (s : bytes) : bool :=
  match rev s with c :: _ => beq c SPC || beq c TAB || beq c NL | [] => false end.
