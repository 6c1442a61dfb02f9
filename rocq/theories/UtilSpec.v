(** * Specification vocabulary for the utilities

    Vectors and string buffers as lists, error messages as text, the furthest
    of a list of failures, windows of a line. *)
From Coq Require Import List Bool Arith Ascii String Sorted.
From Verif Require Import Peg QuickModel QuickSpec ErrModel AstTypes AstModel CypherParse CypherSpec MemModel.
Import ListNotations.

(** ** Vectors: a list of elements *)

Definition list_step (l : list bytes) (o : vop) : vout * list bytes :=
  match o with
  | VPush e => (OUnit, l ++ [e])
  | VPop => match rev l with [] => (OElem None, l) | e :: r => (OElem (Some e), rev r) end
  | VNpop n => (OUnit, firstn (List.length l - n) l)
  | VGet i => (OElem (nth_error l i), l)
  | VLast => (OElem (match rev l with [] => None | e :: _ => Some e end), l)
  | VSize => (OSize (List.length l), l)
  | VClear => (OUnit, [])
  | VElements => (OBytes (List.concat l), l)
  end.

Fixpoint list_run (h : list vop) (l : list bytes) : list vout * list bytes :=
  match h with
  | [] => ([], l)
  | o :: h => let (r, l) := list_step l o in let (rs, l) := list_run h l in (r :: rs, l)
  end.

Definition pushes_of_size (n : nat) (o : vop) : Prop :=
  match o with VPush e => List.length e = n | _ => True end.

(** ** String buffers: a text.  An append that reports failure leaves the text
    as it was. *)
Inductive text_run : list sbop -> list sbout -> bytes -> bytes -> Prop :=
| tr_nil : forall t, text_run [] [] t t
| tr_append : forall s h rs t t', text_run h rs (t ++ s) t' ->
    text_run (SbAppend s :: h) (SbDone true :: rs) t t'
| tr_append_fail : forall s h rs t t', text_run h rs t t' ->
    text_run (SbAppend s :: h) (SbDone false :: rs) t t'
| tr_reset : forall h rs t t', text_run h rs [] t' ->
    text_run (SbReset :: h) (SbDone true :: rs) t t'
| tr_cleanup : forall h rs t t', text_run h rs [] t' ->
    text_run (SbCleanup :: h) (SbDone true :: rs) t t'
| tr_data : forall h rs t t', text_run h rs t t' ->
    text_run (SbData :: h) (SbText t :: rs) t t'.

(** ** Error messages *)

(** l1, l2, ..., lk or ln *)
Fixpoint enumeration (ls : list bytes) : bytes :=
  match ls with
  | [] => []
  | [l] => l
  | [l; m] => l ++ B " or " ++ m
  | l :: ls => l ++ B ", " ++ enumeration ls
  end.

(** how the offending character is described *)
Definition described (c : ascii) : bytes :=
  let q := "'"%char in
  if Ascii.eqb c "000" then B "at end of input"
  else if Ascii.eqb c "007" then B "'\a'" else if Ascii.eqb c "008" then B "'\b'"
  else if Ascii.eqb c "009" then B "'\t'" else if Ascii.eqb c "010" then B "'\n'"
  else if Ascii.eqb c "011" then B "'\v'" else if Ascii.eqb c "012" then B "'\f'"
  else if Ascii.eqb c "013" then B "'\r'" else if Ascii.eqb c q then B "'\''"
  else [q; c; q].

Definition message (col : coloring) (c : ascii) (ls : list bytes) : bytes :=
  fst (col_error col) ++ B "Invalid input" ++ snd (col_error col) ++ B " " ++
  fst (col_token col) ++ described c ++ snd (col_token col) ++ B ": " ++
  fst (col_message col) ++ B "expected " ++ enumeration ls ++ snd (col_message col).

(** ** The furthest failures *)

Record failure := mkfail { f_pos : position; f_char : ascii; f_label : bytes }.

Definition f_off (f : failure) : nat := offset (f_pos f).

(** [c] is at least as far as all of [fs] *)
Definition furthest (o : nat) (fs : list failure) : Prop :=
  Forall (fun f => f_off f <= o) fs /\ exists f, In f fs /\ f_off f = o.

(** the first occurrences, in order *)
Fixpoint firsts (l : list bytes) : list bytes :=
  match l with
  | [] => []
  | x :: l => x :: filter (fun y => negb (bytes_eqb x y)) (firsts l)
  end.

Definition labels_at (o : nat) (fs : list failure) : list bytes :=
  firsts (map f_label (filter (fun f => Nat.eqb (f_off f) o) fs)).

(** failures at the same offset are at the same line and column and see the
    same character *)
Definition consistent (fs : list failure) : Prop :=
  forall f g, In f fs -> In g fs -> f_off f = f_off g -> f_pos f = f_pos g /\ f_char f = f_char g.

(** ** Contexts *)

Definition eol (c : ascii) : Prop := c = "010"%char \/ c = "013"%char.

(** [st, en) lies inside one line *)
Definition one_line (buf : bytes) (st en : nat) : Prop :=
  st <= en <= List.length buf /\
  forall i c, st <= i < en -> nth_error buf i = Some c -> ~ eol c.

Definition line_begin (buf : bytes) (i : nat) : Prop :=
  i = 0 \/ exists c, nth_error buf (i - 1) = Some c /\ eol c.
Definition line_finish (buf : bytes) (i : nat) : Prop :=
  i = List.length buf \/ exists c, nth_error buf i = Some c /\ eol c.

(** the text of the window, with its first three characters replaced by dots
    if [l], its last three if [r] *)
Definition window (buf : bytes) (st en : nat) (l r : bool) (ctx : bytes) : Prop :=
  List.length ctx = en - st /\
  forall i, i < en - st ->
    nth_error ctx i =
    if (l && (i <? 3)) || (r && (en - st <=? i + 3)) then Some "."%char else nth_error buf (st + i).

(** [ctx] and [off'] are a context, at most [maxl] wide, of the byte [off] *)
Definition context_of (buf : bytes) (off maxl : nat) (ctx : bytes) (off' : nat) : Prop :=
  exists st en l r,
    one_line buf st en /\ en - st <= maxl /\ window buf st en l r ctx /\
    (l = false -> line_begin buf st) /\ (r = false -> line_finish buf en) /\
    (l = true \/ r = true -> en - st = maxl) /\
    st <= off /\ off' = off - st /\
    (forall c, nth_error buf off = Some c -> ~ eol c -> c <> "000"%char ->
       off < en /\ (8 <= maxl -> nth_error ctx off' = Some c)).

(** ** Histories of error tracking *)

Inductive etop : Set := ENote (f : failure) | EClear | EClearErrors | EReify.

Definition et_step (col : coloring) (e : etrack) (o : etop) : option etrack :=
  match o with
  | ENote f => et_note e (f_pos f) (f_char f) (f_label f)
  | EClear => Some (et_clear_potentials e)
  | EClearErrors => Some (et_clear_errors e)
  | EReify => Some (et_reify col e)
  end.

Fixpoint et_run (col : coloring) (h : list etop) (e : etrack) : option etrack :=
  match h with
  | [] => Some e
  | o :: h => match et_step col e o with Some e => et_run col h e | None => None end
  end.

Definition notes (h : list etop) : list failure :=
  flat_map (fun o => match o with ENote f => [f] | _ => [] end) h.

Definition e_offset (e : perror) : nat := offset (pe_pos e).

(** beyond every error reported so far *)
Definition beyond (es : list perror) (f : failure) : Prop := Forall (fun e => e_offset e < f_off f) es.

(** the error for the failures [fs]: at the furthest of them, expecting their
    labels *)
Definition reports (col : coloring) (fs : list failure) (e : perror) : Prop :=
  exists f, In f fs /\ furthest (f_off f) fs /\ pe_pos e = f_pos f /\
    pe_msg e = message col (f_char f) (labels_at (f_off f) fs) /\ pe_ctx e = None.

(** [h] leaves the failures [fs] pending and has reported [es] *)
Inductive history (col : coloring) : list etop -> list failure -> list perror -> Prop :=
| h_start : history col [] [] []
| h_note : forall h fs es f, history col h fs es -> beyond es f ->
    history col (h ++ [ENote f]) (fs ++ [f]) es
| h_known : forall h fs es f, history col h fs es -> ~ beyond es f ->
    history col (h ++ [ENote f]) fs es
| h_clear : forall h fs es, history col h fs es -> history col (h ++ [EClear]) [] es
| h_nothing : forall h es, history col h [] es -> history col (h ++ [EReify]) [] es
| h_report : forall h fs es e, history col h fs es -> fs <> [] -> reports col fs e ->
    history col (h ++ [EReify]) [] (es ++ [e]).

Definition is_clear (o : etop) : bool := match o with EClear | EClearErrors => true | _ => false end.

(** ** The errors of a segment *)

(** [e] is at a byte of the text [inp] (from the byte [k], where the segment
    starts, to the end), its message is about that byte, and its context is a
    context of it in what was buffered of the text from [k] on *)
Definition error_described (col : coloring) (p0 : position) (inp : bytes) (k : nat) (e : perror) : Prop :=
  exists q ls ctx off' lim,
    k <= q <= List.length inp /\ ls <> [] /\ NoDup ls /\
    pe_pos e = walk p0 (firstn q inp) /\
    pe_msg e = message col (match nth_error inp q with Some c => c | None => "000"%char end) ls /\
    pe_ctx e = Some (ctx, off') /\ context_of (firstn lim (skipn k inp)) (q - k) 80 ctx off'.

Definition errors_described (col : coloring) (p0 : position) (inp : bytes) (s : segment) : Prop :=
  StronglySorted lt (map e_offset (s_errors s)) /\
  exists k, true_position p0 inp k (seg_start s) /\ Forall (error_described col p0 inp k) (s_errors s).
