(** * Error tracking (lib/src/errors.c, errors.h) and error contexts (util.c)

    Allocation failure is not modelled here.  A C string is the list of its
    bytes before the terminating NUL. *)
From Verif Require Import Peg QuickModel.

Definition NUL : ascii := "000"%char.

(** lib/src/cypher-parser.h.in: struct cypher_parser_colorization, the three
    pairs errors.c uses *)
Record coloring := mkcol {
  col_error : bytes * bytes;
  col_token : bytes * bytes;
  col_message : bytes * bytes }.

(** parser_config.c:33-42 _cypher_parser_no_colorization *)
Definition no_colorization : coloring := mkcol ([], []) ([], []) ([], []).

(** parser_config.c:44-53 _cypher_parser_ansi_colorization, with the ANSI_COLOR
    macros of parser_config.c:20-28 *)
Definition ESC : ascii := "027"%char.
Definition ansi (s : string) : bytes := ESC :: B s.
Definition ansi_colorization : coloring :=
  mkcol (ansi "[1m" ++ ansi "[31m", ansi "[0m")
        (ansi "[1m", ansi "[0m") (ansi "[1m", ansi "[0m").

(** errors.h:23-29 struct cypher_parse_error; the context is filled in later
    by parser.c finished() *)
Record perror := mkerr {
  pe_pos : position;
  pe_msg : bytes;
  pe_ctx : option (bytes * nat) }.

(** errors.h:36-50 struct cp_error_tracking (capacities dropped; labels and
    errors oldest first) *)
Record etrack := mket {
  et_pos : position;
  et_char : ascii;
  et_labels : list bytes;
  et_errs : list perror;
  et_last : nat }.

(** errors.c:67-73 cp_et_init: memset 0 *)
Definition et_init : etrack := mket (mkpos 0 0 0) NUL [] [] 0.

(** errors.h:60-63 cp_et_clear_potentials: only nlabels = 0 *)
Definition et_clear_potentials (e : etrack) : etrack :=
  mket (et_pos e) (et_char e) [] (et_errs e) (et_last e).

(** errors.h:75-78 cp_et_clear_errors: only nerrors = 0 *)
Definition et_clear_errors (e : etrack) : etrack :=
  mket (et_pos e) (et_char e) (et_labels e) [] (et_last e).

Definition nonempty {X} (l : list X) : bool := match l with [] => false | _ => true end.

Definition bytes_eqb (a b : bytes) : bool :=
  if list_eq_dec ascii_dec a b then true else false.

(** errors.c:76-124 cp_et_note_potential_error; [None]: one of the debug
    assertions of lines 93-99 fails *)
Definition et_note (e : etrack) (p : position) (c : ascii) (label : bytes) : option etrack :=
  if Nat.ltb (offset p) (offset (et_pos e))
     || (nonempty (et_errs e) && Nat.leb (offset p) (et_last e))
  then Some e
  else
    let e1 := if negb (nonempty (et_labels e)) || Nat.ltb (offset (et_pos e)) (offset p)
              then mket p c [] (et_errs e) (et_last e) else e in
    if nonempty (et_labels e1)
       && negb (Nat.eqb (line (et_pos e1)) (line p)
                && Nat.eqb (column (et_pos e1)) (column p)
                && beq (et_char e1) c)
    then None
    else if existsb (bytes_eqb label) (et_labels e1)
    then Some e1
    else Some (mket (et_pos e1) (et_char e1) (et_labels e1 ++ [label])
                    (et_errs e1) (et_last e1)).

(** errors.c:173-193 chardesc *)
Definition chardesc (c : ascii) : bytes :=
  match nat_of_ascii c with
  | 7 => B "'\a'" | 8 => B "'\b'" | 12 => B "'\f'" | 10 => B "'\n'"
  | 13 => B "'\r'" | 9 => B "'\t'" | 11 => B "'\v'" | 39 => B "'\''"
  | 0 => B "at end of input"
  | _ => [SQ; c; SQ]
  end.

(** errors.c:149-154: the prefix written by
    "%sInvalid input%s %s%s%s: " *)
Definition et_prefix (col : coloring) (c : ascii) : bytes :=
  fst (col_error col) ++ B "Invalid input" ++ snd (col_error col) ++ B " " ++
  fst (col_token col) ++ chardesc c ++ snd (col_token col) ++ B ": ".

(** errors.c:252-267: the loop that writes the labels; the list is the labels
    still to be written *)
Fixpoint write_labels (ls : list bytes) : bytes :=
  match ls with
  | [] => []
  | l :: ls' =>
      B " " ++ l ++
      (match ls' with
       | [] => []
       | [_] => B " or"
       | _ :: _ :: _ => B ","
       end) ++ write_labels ls'
  end.

(** errors.c:196-276 error_report: what is written at *buffer, without the NUL *)
Definition error_report (col : coloring) (c : ascii) (ls : list bytes) : bytes :=
  et_prefix col c ++ fst (col_message col) ++ B "expected" ++ write_labels ls ++
  snd (col_message col).

(** errors.c:213-227: the size of the buffer that is allocated for it *)
Definition error_report_cap (col : coloring) (c : ascii) (ls : list bytes) : nat :=
  let len0 := List.length (et_prefix col c) + List.length (fst (col_message col)) + 8
              + List.length (snd (col_message col)) + 1 in
  match ls with
  | [] => len0
  | _ => fold_left (fun n l => n + (List.length l + 2)) (rev ls) len0 - 1
         + (if Nat.ltb 1 (List.length ls) then 2 else 0)
  end.

(** errors.c:127-170 cp_et_reify_potentials *)
Definition et_reify (col : coloring) (e : etrack) : etrack :=
  match et_labels e with
  | [] => e
  | ls =>
      mket (mkpos 0 0 0) NUL []
           (et_errs e ++ [mkerr (et_pos e) (error_report col (et_char e) ls) None])
           (offset (et_pos e))
  end.

(** ** util.c:54-147 line_context *)

(** byte of the buffer; the code only reads inside it ([None] = read outside) *)
Definition is_eolch (c : ascii) : bool := beq c NL || beq c CR.

(** util.c:66-69: step back over newlines and NULs *)
Fixpoint lc_back (buf : bytes) (p : nat) : nat :=
  match p with
  | 0 => 0
  | S q =>
      match nth_error buf p with
      | Some c => if is_eolch c || beq c NUL then lc_back buf q else p
      | None => p
      end
  end.

(** one iteration's left half, util.c:78-92: [inl] = loop left by [break] *)
Definition lc_left (buf : bytes) (maxl st n : nat) : (nat * nat) + (nat * nat * bool) :=
  match st with
  | 0 => inr (st, n, true)
  | S q =>
      match nth_error buf q with
      | Some c =>
          if is_eolch c then inr (st, n, true)
          else if Nat.eqb (S n) maxl then inl (q, S n) else inr (q, S n, false)
      | None => inr (st, n, true)
      end
  end.

(** util.c:94-108 *)
Definition lc_right (buf : bytes) (maxl en n : nat) : (nat * nat) + (nat * nat * bool) :=
  match nth_error buf en with
  | None => inr (en, n, true)
  | Some c =>
      if is_eolch c then inr (en, n, true)
      else if Nat.eqb (S n) maxl then inl (S en, S n) else inr (S en, S n, false)
  end.

(** util.c:76-109 the loop; result (startp, endp, n, found_start, found_end);
    [None]: out of fuel (excluded in ErrProofs.v) *)
Fixpoint lc_loop (k : nat) (buf : bytes) (maxl st en n : nat) (fs fe : bool)
    : option (nat * nat * nat * bool * bool) :=
  match k with
  | 0 => None
  | S k =>
      if fs && fe then Some (st, en, n, fs, fe)
      else
        let right st n fs :=
          if fe then lc_loop k buf maxl st en n fs fe
          else match lc_right buf maxl en n with
               | inl (en', n') => Some (st, en', n', fs, fe)
               | inr (en', n', fe') => lc_loop k buf maxl st en' n' fs fe'
               end in
        if fs then right st n fs
        else match lc_left buf maxl st n with
             | inl (st', n') => Some (st', en, n', fs, fe)
             | inr (st', n', fs') => right st' n' fs'
             end
  end.

Definition set_dots (l : bytes) (i : nat) : bytes :=
  firstn i l ++ B "..." ++ skipn (i + 3) l.

(** util.c:54-147; [None]: a REQUIRE or assert fails *)
Definition line_context (buf : bytes) (off maxl : nat) : option (bytes * nat) :=
  if Nat.ltb maxl 7 || Nat.eqb (List.length buf) 0 || Nat.ltb (List.length buf) off then None
  else
    let errp := lc_back buf (if Nat.leb (List.length buf) off
                             then List.length buf - 1 else off) in
    match lc_loop (S (S (S (S (List.length buf + List.length buf))))) buf maxl errp errp 0 false false with
    | None => None
    | Some (st, en, n, fs, fe) =>
        if negb (Nat.eqb (en - st) n) || Nat.ltb maxl n
           || (negb fs || negb fe) && negb (Nat.ltb 3 n) then None
        else
          let t := slice buf st en in
          let t1 := if fs then t else set_dots t 0 in
          let t2 := if fe then t1 else set_dots t1 (n - 3) in
          Some (t2, off - st)
    end.
