(** * Specification vocabulary for printing

    From the model: nodes, constructors, the function printing a detail string
    and positions. *)
From Coq Require Import List Bool Arith Ascii String.
From Verif Require Import Peg QuickModel AstTypes AstModel DetailModel PrintModel CypherSpec.
Import ListNotations.

(** the fields of the node were filled in by a successful call of the
    constructor of its type *)
Definition made (n : node) : Prop :=
  exists id ps kids r m, construct id (nty n) ps kids r = Some m /\ nflds m = nflds n.

(** the nodes that a node's fields point to *)
Definition points_to (n : node) : list nat :=
  flat_map (fun f => match f with FNode (Some x) => [x] | FList l => l | _ => [] end) (nflds n).

(** each of them exists and so has an ordinal *)
Definition resolved (ord : nat -> option nat) (n : node) : Prop :=
  forall x, In x (points_to n) -> ord x <> None.

(** [text] is the detail string of [n]: what it prints into any buffer with
    room to spare *)
Definition has_detail (ord : nat -> option nat) (n : node) (text : bytes) : Prop :=
  forall buf, List.length text < List.length buf ->
  exists b, detailstr ord n buf (List.length buf) = Some (b, List.length text) /\
            firstn (List.length text) b = text.

(** a tree with the depth of each node, parents first *)
Fixpoint outline (d : nat) (t : node) : list (nat * node) :=
  match t with Node _ _ _ _ ks _ => (d, t) :: flat_map (outline (S d)) ks end.
Definition outlines (ts : list node) : list (nat * node) := flat_map (outline 0) ts.

(** the widths of the columns: ordinal, start, end, name with its indentation *)
Record columns := mkcols { c_ord : nat; c_start : nat; c_end : nat; c_name : nat }.

Definition fits (c : columns) (dn : nat * node) : Prop :=
  let (d, n) := dn in
  S (List.length (dec (nord n))) <= c_ord c /\
  List.length (dec (offset (r_start (nrng n)))) <= c_start c /\
  List.length (dec (offset (r_end (nrng n)))) <= c_end c /\
  forall name, type_name (nty n) = Some name -> 2 * d + List.length name <= c_name c.

Definition blanks (n : nat) : bytes := repeat " "%char n.
Definition right_aligned (w : nat) (s : bytes) : bytes := blanks (w - List.length s) ++ s.
Definition left_aligned (w : nat) (s : bytes) : bytes := s ++ blanks (w - List.length s).

(** control characters are shown as in C *)
Definition visible (c : ascii) : bytes :=
  if Ascii.eqb c "007" then B "\a" else if Ascii.eqb c "008" then B "\b"
  else if Ascii.eqb c "009" then B "\t" else if Ascii.eqb c "010" then B "\n"
  else if Ascii.eqb c "011" then B "\v" else if Ascii.eqb c "012" then B "\f"
  else if Ascii.eqb c "013" then B "\r" else if Ascii.eqb c "000" then []
  else [c].
Definition visible_text (s : bytes) : bytes := flat_map visible s.

(** [o] is [s] broken into lines of [w] characters (the first of [k]), the last
    of at most one more *)
Inductive broken (sep : bytes) (w : nat) : nat -> bytes -> bytes -> Prop :=
| br_last : forall k s, List.length s <= S k -> broken sep w k s s
| br_line : forall k a s o, List.length a = k -> broken sep w w s o ->
    broken sep w k (a ++ s) (a ++ sep ++ o).

(** the detail starting in column [col], for a display of [width] characters (0:
    unlimited) *)
Definition laid_out (width col : nat) (detail o : bytes) : Prop :=
  if Nat.eqb width 0 then o = visible_text detail
  else let w := if col <? width then width - col else 10 in
       broken ("010"%char :: blanks col) w w (visible_text detail) o.

(** what is printed for one node *)
Definition line_of (c : columns) (ac : ast_coloring) (width : nat) (detail : node -> bytes)
    (dn : nat * node) (l : bytes) : Prop :=
  let (d, n) := dn in
  exists name o, type_name (nty n) = Some name /\
    laid_out width (c_name c + c_start c + c_end c + c_ord c + 8) (detail n) o /\
    l = fst (ac_ordinal ac) ++ right_aligned (c_ord c) ("@"%char :: dec (nord n)) ++ snd (ac_ordinal ac) ++ B "  " ++
        fst (ac_range ac) ++ right_aligned (c_start c) (dec (offset (r_start (nrng n)))) ++ B ".." ++
        left_aligned (c_end c) (dec (offset (r_end (nrng n)))) ++ snd (ac_range ac) ++ B "  " ++
        fst (ac_indent ac) ++ List.concat (repeat (B "> ") d) ++ snd (ac_indent ac) ++
        fst (ac_type ac) ++ name ++ snd (ac_type ac) ++
        match detail n with
        | [] => ["010"%char]
        | _ => blanks (c_name c - (2 * d + List.length name) + 2) ++
               fst (ac_desc ac) ++ o ++ "010"%char :: snd (ac_desc ac)
        end.

(** no text has exactly the length of the buffer it is printed to, which is
    only enlarged for longer texts *)
Fixpoint never_exact (cap : nat) (lens : list nat) : Prop :=
  match lens with
  | [] => True
  | l :: lens => l <> cap /\ never_exact (if cap <? l then S l else cap) lens
  end.
