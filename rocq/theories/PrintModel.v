(** * Printing of ASTs

    lib/src/util.c:26-51 (snprintf_realloc), lib/src/ast.c:600-885
    (cypher_ast_fprint, cypher_ast_fprintv and their helpers), segment.c:172-179,
    result.c:156-163.

    Simplifications: writing to the stream and allocation never fail (their
    failure only makes the function return -1); integers are unbounded;
    log10 is exact and its value at 0, whose conversion to unsigned int is
    undefined in C, is a parameter. *)
From Coq Require Import List Bool Arith Ascii String.
From Verif Require Import Peg AstTypes AstModel QuickModel DetailModel CypherParse.
Import ListNotations.

(** A printing function that, like snprintf, takes a buffer of a size and
    returns the new contents and the length it wanted to write; [None]:
    undefined behaviour. *)
Definition printer := bytes -> nat -> option (bytes * nat).

(** vsnprintf of the text [s] *)
Definition vsnprintf (s : bytes) : printer :=
  fun buf size => wexec size (WPrintf s) (buf, 0).

(** realloc to [cap] bytes; [junk]: the contents of fresh memory *)
Definition regrow (junk : ascii) (buf : bytes) (cap : nat) : bytes :=
  firstn cap (buf ++ repeat junk cap).

(** util.c:26-51 snprintf_realloc and ast.c:600-624
    cypher_astnode_detailstr_realloc: the buffer afterwards (its length is the
    new [*bufcap]) and the returned width *)
Definition print_realloc (junk : ascii) (p : printer) (buf : bytes) : option (bytes * nat) :=
  match p buf (List.length buf) with
  | None => None
  | Some (b, width) =>
      if List.length buf <? width
      then let b := regrow junk b (S width) in p b (List.length b)
      else Some (b, width)
  end.

Definition snprintf_realloc (junk : ascii) (s : bytes) (buf : bytes) : option (bytes * nat) :=
  print_realloc junk (vsnprintf s) buf.

Definition detailstr_realloc (junk : ascii) (ord : nat -> option nat) (n : node) (buf : bytes)
    : option (bytes * nat) :=
  print_realloc junk (detailstr ord n) buf.

(** cypher-parser.h.in:90-101, the pairs used for printing ASTs *)
Record ast_coloring := mkac {
  ac_ordinal : bytes * bytes;
  ac_range : bytes * bytes;
  ac_indent : bytes * bytes;
  ac_type : bytes * bytes;
  ac_desc : bytes * bytes }.

(** parser_config.c:33-42 *)
Definition ac_none : ast_coloring := mkac ([], []) ([], []) ([], []) ([], []) ([], []).

Definition spaces (n : nat) : bytes := repeat " "%char n.
(** printf's %*s, %*zu: padded on the left; %-*zu: on the right *)
Definition padl (w : nat) (s : bytes) : bytes := spaces (w - List.length s) ++ s.
Definition padr (w : nat) (s : bytes) : bytes := s ++ spaces (w - List.length s).

(** (unsigned int)log10(n) *)
Fixpoint flog10 (f n : nat) : nat :=
  match f with
  | 0 => 0
  | S f => if n <? 10 then 0 else S (flog10 f (n / 10))
  end.
Definition ulog10 (lz n : nat) : nat := if Nat.eqb n 0 then lz else flog10 n n.

(** the name of a node's type; [None]: NULL is dereferenced *)
Definition type_name (t : asttype) : option bytes :=
  match typestr t with Some (Some s) => Some s | _ => None end.

Record fwidths := mkfw { fw_ordinal : nat; fw_start : nat; fw_end : nat; fw_name : nat }.

(** ast.c:627-647 ast_fprint_field_widths; the record holds the running
    maxima *)
Fixpoint field_widths (depth : nat) (t : node) (m : fwidths) : option fwidths :=
  match t with
  | Node _ ty r _ ks o =>
      match type_name ty with
      | None => None
      | Some name =>
          let m := mkfw (Nat.max (fw_ordinal m) o)
                        (Nat.max (fw_start m) (offset (r_start r)))
                        (Nat.max (fw_end m) (offset (r_end r)))
                        (Nat.max (fw_name m) (List.length name + depth * 2)) in
          (fix go (ks : list node) (m : fwidths) : option fwidths :=
             match ks with
             | [] => Some m
             | k :: ks => match field_widths (S depth) k m with Some m => go ks m | None => None end
             end) ks m
      end
  end.

Fixpoint field_widths_all (ts : list node) (m : fwidths) : option fwidths :=
  match ts with
  | [] => Some m
  | t :: ts => match field_widths 0 t m with Some m => field_widths_all ts m | None => None end
  end.

(** ast.c:670-684: what is printed for a byte of the detail *)
Definition escape (c : ascii) : bytes :=
  match nat_of_ascii c with
  | 7 => B "\a" | 8 => B "\b" | 12 => B "\f" | 10 => B "\n"
  | 13 => B "\r" | 9 => B "\t" | 11 => B "\v"
  | 0 => []
  | _ => [c]
  end.

Definition NLc : ascii := "010"%char.

(** ast.c:649-716 ast_fprint_detail.  [w]: the room left on the line, [None] once it has
    wrapped around below 0; [width]: 0 when lines are not broken. *)
Definition MIN_DETAIL_WIDTH : nat := 10.

Section Detail.
Variables (width offs : nat).

Fixpoint emit (cs : bytes) (more : bool) (w : option nat) : bytes * option nat :=
  match cs with
  | [] => ([], w)
  | c :: cs =>
      let w' := match w with Some (S w) => Some w | _ => None end in
      if match width, w' with S _, Some 0 => more | _, _ => false end
      then let (o, w'') := emit cs more (Some width) in
           (c :: NLc :: spaces offs ++ o, w'')
      else let (o, w'') := emit cs more w' in (c :: o, w'')
  end.

Fixpoint emit_detail (detail : bytes) (w : option nat) : bytes :=
  match detail with
  | [] => []
  | c :: rest =>
      let (o, w') := emit (escape c) (match rest with [] => false | _ => true end) w in
      o ++ emit_detail rest w'
  end.
End Detail.

Definition fprint_detail (ac : ast_coloring) (detail : bytes) (render_width offs : nat) : bytes :=
  let width := if Nat.eqb render_width 0 then 0
               else if offs <? render_width then render_width - offs
               else MIN_DETAIL_WIDTH in
  fst (ac_desc ac) ++ emit_detail width offs detail (Some width) ++ NLc :: snd (ac_desc ac).

(** ast.c:719-803 _cypher_ast_fprint: the buffer afterwards and what is written
    to the stream.  [None]: undefined behaviour or a failing assertion. *)
Section FPrint.
Variables (junk : ascii) (ord : nat -> option nat) (ac : ast_coloring) (render_width : nat)
  (fw : fwidths).

Fixpoint arrows (n : nat) : bytes := match n with 0 => [] | S n => B "> " ++ arrows n end.

(** everything written for one node, its children excluded *)
Definition fprint_one (depth : nat) (ty : asttype) (t : node) (buf : bytes) : option (bytes * bytes) :=
  match snprintf_realloc junk ("@"%char :: dec (nord t)) buf with
  | None => None
  | Some (buf, _) =>
      let o1 := fst (ac_ordinal ac) ++ padl (fw_ordinal fw) (cstr buf) ++ snd (ac_ordinal ac) ++ B "  " in
      let o2 := fst (ac_range ac) ++ padl (fw_start fw) (dec (offset (r_start (nrng t)))) ++ B ".." ++
                padr (fw_end fw) (dec (offset (r_end (nrng t)))) ++ snd (ac_range ac) ++ B "  " ++
                fst (ac_indent ac) in
      match type_name ty with
      | None => None
      | Some name =>
          let o3 := snd (ac_indent ac) ++ fst (ac_type ac) ++ name ++ snd (ac_type ac) in
          match detailstr_realloc junk ord t buf with
          | None => None
          | Some (buf, len) =>
              let o := o1 ++ o2 ++ arrows depth ++ o3 in
              match len with
              | 0 => Some (buf, o ++ [NLc])
              | _ =>
                  let consumed := depth * 2 + List.length name in
                  if consumed <=? fw_name fw then
                    if len <=? List.length buf then
                      let pad := fw_name fw - consumed + 2 in
                      let offs := fw_name fw + fw_start fw + fw_end fw + fw_ordinal fw + 8 in
                      Some (buf, o ++ spaces pad ++ fprint_detail ac (firstn len buf) render_width offs)
                    else None     (* reads past the end of the buffer *)
                  else None       (* assert(consumed <= name_width) *)
              end
          end
      end
  end.

Fixpoint fprint_rec (depth : nat) (t : node) (buf : bytes) : option (bytes * bytes) :=
  match t with
  | Node _ ty _ _ ks _ =>
      match fprint_one depth ty t buf with
      | None => None
      | Some (buf, o) =>
          (fix go (ks : list node) (buf o : bytes) : option (bytes * bytes) :=
             match ks with
             | [] => Some (buf, o)
             | k :: ks =>
                 match fprint_rec (S depth) k buf with
                 | None => None
                 | Some (buf, o') => go ks buf (o ++ o')
                 end
             end) ks buf o
      end
  end.

Fixpoint fprint_all (ts : list node) (buf : bytes) : option (bytes * bytes) :=
  match ts with
  | [] => Some (buf, [])
  | t :: ts =>
      match fprint_rec 0 t buf with
      | None => None
      | Some (buf, o) =>
          match fprint_all ts buf with
          | None => None
          | Some (buf, o') => Some (buf, o ++ o')
          end
      end
  end.
End FPrint.

(** ast.c:836-885 cypher_ast_fprintv (and 806-833 cypher_ast_fprint for one
    tree); [buf]: the 1024 bytes obtained from malloc *)
Definition fprintv (lz : nat) (junk : ascii) (ord : nat -> option nat) (ac : ast_coloring)
    (render_width : nat) (ts : list node) (buf : bytes) : option bytes :=
  match field_widths_all ts (mkfw 0 0 0 0) with
  | None => None
  | Some m =>
      let fw := mkfw (ulog10 lz (fw_ordinal m) + 2) (ulog10 lz (fw_start m) + 1)
                     (ulog10 lz (fw_end m) + 1) (fw_name m) in
      option_map snd (fprint_all junk ord ac render_width fw ts buf)
  end.

Definition fprint_bufcap : nat := 32 * 32.

(** ordinals of the nodes of a forest, by identity *)
Fixpoint find_ord (t : node) (x : nat) : option nat :=
  match t with
  | Node i _ _ _ ks o =>
      if Nat.eqb i x then Some o
      else (fix go (ks : list node) : option nat :=
              match ks with
              | [] => None
              | k :: ks => match find_ord k x with Some o => Some o | None => go ks end
              end) ks
  end.

Fixpoint forest_ord (ts : list node) (x : nat) : option nat :=
  match ts with
  | [] => None
  | t :: ts => match find_ord t x with Some o => Some o | None => forest_ord ts x end
  end.

(** segment.c:172-179 cypher_parse_segment_fprint_ast, result.c:156-163 *)
Definition segment_fprint_ast (lz : nat) (junk : ascii) (ac : ast_coloring) (render_width : nat)
    (s : segment) (buf : bytes) : option bytes :=
  fprintv lz junk (forest_ord (s_roots s)) ac render_width (s_roots s) buf.
