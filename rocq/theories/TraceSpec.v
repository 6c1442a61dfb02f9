(** * Specification vocabulary: how an input was matched, and the text of comments *)
From Coq Require Import List Bool Arith Ascii String.
From Verif Require Import Peg QuickModel CypherSyntax CypherGrammar ErrModel CypherMatch AstTypes AstModel
  CypherExec CypherParse CypherSpec.
Import ListNotations.

(** The uses of grammar rules that make up a successful match, each with the
    bytes it consumed (from, to), outer before inner and left before right.
    Whatever was only looked at, or tried and given up, does not count. *)
Section Visits.
Variables (col : coloring) (off : position) (inp : bytes).
Notation runc := (run CG (get_of inp) (cprun col off)).

Fixpoint visits (n : nat) (e : cexp) (s : pst action cuser) {struct n} : list (rule * nat * nat) :=
  match n with
  | 0 => []
  | S n =>
    match e with
    | PRule r => match runc n (CG r) s with ROk s1 => (r, pos s, pos s1) :: visits n (CG r) s | _ => [] end
    | PSeq e1 e2 => match runc n e1 s with ROk s1 => visits n e1 s ++ visits n e2 s1 | _ => [] end
    | PAlt e1 e2 =>
        match runc n e1 s with
        | ROk _ => visits n e1 s
        | RFail s1 => visits n e2 (restore s s1)
        | _ => []
        end
    | PStar e1 | PPlus e1 => match runc n e1 s with ROk s1 => visits n e1 s ++ visits n (PStar e1) s1 | _ => [] end
    | PQuery e1 | PErr e1 _ => match runc n e1 s with ROk _ => visits n e1 s | _ => [] end
    | _ => []
    end
  end.
End Visits.

(** without the end of line that ends a line comment *)
Definition chop_eol (s : bytes) : bytes :=
  match rev s with
  | "010"%char :: "013"%char :: t => rev t
  | "010"%char :: t => rev t
  | _ => s
  end.

(** what is between the delimiters *)
Definition between_line (s : bytes) : bytes := chop_eol (skipn 2 s).
Definition between_block (s : bytes) : bytes := firstn (List.length s - 4) (skipn 2 s).

(** the node for a use of one of the rules for comments and for skipped input:
    type, text, and where the text starts *)
Definition text_node (inp : bytes) (v : rule * nat * nat) : list (asttype * bytes * nat) :=
  match v with
  | (R_line_comment, p, q) => [(T_LINE_COMMENT, between_line (slice inp p q), p + 2)]
  | (R_block_comment, p, q) => [(T_BLOCK_COMMENT, between_block (slice inp p q), p + 2)]
  | (R_skip_to_directive, p, q) | (R_skip_to_statement, p, q) | (R_skip_to_clause, p, q) =>
      [(T_ERROR, slice inp p q, p)]
  | _ => []
  end.

Definition is_text_node (x : node) : bool :=
  match nty x with T_LINE_COMMENT | T_BLOCK_COMMENT | T_ERROR => true | _ => false end.

(** a comment of the language: "//" up to an end of line or the end of the
    input, "/*" up to the first "*/" *)
Definition line_comment_text (s rest t : bytes) : Prop :=
  ~ In "010"%char t /\
  (s = B "//" ++ t /\ rest = [] \/
   s = B "//" ++ t ++ ["013"%char; "010"%char] \/
   s = B "//" ++ t ++ ["010"%char] /\ forall u, t <> u ++ ["013"%char]).
Definition block_comment_text (s t : bytes) : Prop :=
  s = B "/*" ++ t ++ B "*/" /\ forall u w, t ++ B "*" <> u ++ B "*/" ++ w.

(** a node of one of those types: its type, its text and where it starts *)
Definition text_of (n : node) : bytes := match nflds n with [FStr s] => s | _ => [] end.
Definition view (n : node) : asttype * bytes * nat := (nty n, text_of n, offset (r_start (nrng n))).
Definition at_offset (k : nat) (v : asttype * bytes * nat) : asttype * bytes * nat :=
  let '(t, s, p) := v in (t, s, k + p).

(** The uses of rules in the match that gave the segment, as positions in the
    whole input.  [y] is what the parser carries over from the segments before
    (only the tracking of errors matters to the match). *)
Definition moved (d : nat) (v : rule * nat * nat) : rule * nat * nat := let '(r, p, q) := v in (r, d + p, d + q).
Definition matched_with (cf : config) (fl : pflags) (inp : bytes) (seg : segment) (uses : list (rule * nat * nat)) : Prop :=
  exists d y s,
    offset (seg_start seg) = d + offset (cf_position cf) /\
    crun (cf_color cf) (y_off y) (cfuel (skipn d inp)) (skipn d inp) (PRule (start_rule fl)) (match_start y) = ROk s /\
    offset (seg_end seg) = offset (seg_start seg) + pos s /\
    uses = map (moved d) (visits (cf_color cf) (y_off y) (skipn d inp) (cfuel (skipn d inp)) (PRule (start_rule fl)) (match_start y)).

(** a use of a comment rule is over a comment *)
Definition use_ok (inp : bytes) (v : rule * nat * nat) : Prop :=
  let '(r, p, q) := v in
  p <= q <= List.length inp /\
  (r = R_line_comment -> line_comment_text (slice inp p q) (skipn q inp) (between_line (slice inp p q))) /\
  (r = R_block_comment -> block_comment_text (slice inp p q) (between_block (slice inp p q))).
