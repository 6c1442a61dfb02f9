(** * Growable memory: vectors, string buffers, error reports

    lib/src/vector.c, vector.h, string_buffer.c, string_buffer.h and
    errors.c:196-276.  An allocated block is the list of its bytes; a pointer
    that may be NULL is an option.  [None] as an outcome is undefined behaviour
    (access outside of a block or through NULL) or a failing assertion.
    Simplification: unsigned int and size_t do not overflow. *)
From Coq Require Import List Bool Arith Ascii String.
From Verif Require Import Peg QuickModel ErrModel DetailModel.
Import ListNotations.

(** ** Blocks *)

Definition block_ptr := option bytes.

(** realloc(p, n) when it succeeds: [junk] is what fresh memory contains *)
Definition realloc (junk : bytes) (p : block_ptr) (n : nat) : bytes :=
  firstn n (match p with Some b => b | None => [] end ++ firstn n junk ++ repeat NUL n).

(** the [n] bytes at [i] *)
Definition load (p : block_ptr) (i n : nat) : option bytes :=
  match p with
  | Some b => if i + n <=? List.length b then Some (firstn n (skipn i b)) else None
  | None => None
  end.

(** memcpy to [i]; copying nothing touches nothing *)
Definition store (p : block_ptr) (i : nat) (s : bytes) : option block_ptr :=
  match s, p with
  | [], _ => Some p
  | _, Some b => match put_all b i s with Some b => Some (Some b) | None => None end
  | _, None => None
  end.

(** ** Vectors *)

(** vector.h:82-88 struct cp_vector *)
Record cvec := mkvec {
  v_esize : nat;
  v_elems : block_ptr;
  v_cap : nat;
  v_len : nat }.

(** vector.c:47-53 cp_vector_init; [None]: assertion *)
Definition vec_init (esize : nat) : option cvec :=
  if 0 <? esize then Some (mkvec esize None 0 0) else None.

(** vector.c:56-61 cp_vector_cleanup: the block is freed but the pointer is
    kept; [v_elems] becomes dangling, which the model shows as NULL *)
Definition vec_cleanup (v : cvec) : cvec := mkvec (v_esize v) None 0 0.

Definition VECTOR_BLOCK : nat := 8.

(** vector.c:64-83 cp_vector_push.  [mem]: [Some junk] if realloc succeeds,
    [None] if it fails.  The test after realloc looks at [element], which is
    the address of the caller's variable, so a failure goes unnoticed. *)
Definition vec_push (mem : option bytes) (v : cvec) (element : bytes) : option cvec :=
  if v_cap v <? v_len v then None
  else
    let v1 :=
      if v_cap v <=? v_len v then
        let newcap := if Nat.eqb (v_cap v) 0 then VECTOR_BLOCK else v_cap v * 2 in
        mkvec (v_esize v)
              (match mem with Some junk => Some (realloc junk (v_elems v) (newcap * v_esize v)) | None => None end)
              newcap (v_len v)
      else v in
    if v_len v1 <? v_cap v1 then
      match store (v_elems v1) (v_len v1 * v_esize v1) element with
      | Some p => Some (mkvec (v_esize v1) p (v_cap v1) (S (v_len v1)))
      | None => None
      end
    else None.

(** the element a pointer into the vector points to *)
Definition vec_at (v : cvec) (i : nat) : option bytes := load (v_elems v) (i * v_esize v) (v_esize v).

(** vector.h:103-107 cp_vector_pop, and the reading of the element by the
    wrapper of vector.h:56-57; inner [None]: NULL (the wrapper's default) *)
Definition vec_pop (v : cvec) : option (option bytes * cvec) :=
  match v_len v with
  | 0 => Some (None, v)
  | S n => match vec_at v n with
           | Some e => Some (Some e, mkvec (v_esize v) (v_elems v) (v_cap v) n)
           | None => None
           end
  end.

(** vector.h:109-112 cp_vector_npop *)
Definition vec_npop (v : cvec) (n : nat) : cvec :=
  mkvec (v_esize v) (v_elems v) (v_cap v) (v_len v - Nat.min (v_len v) n).

(** vector.h:114-117 cp_vector_get *)
Definition vec_get (v : cvec) (i : nat) : option (option bytes) :=
  if i <? v_len v then option_map Some (vec_at v i) else Some None.

(** vector.h:119-123 cp_vector_last *)
Definition vec_last (v : cvec) : option (option bytes) :=
  if 0 <? v_len v then option_map Some (vec_at v (v_len v - 1)) else Some None.

(** vector.h:130-133 cp_vector_clear *)
Definition vec_clear (v : cvec) : cvec := mkvec (v_esize v) (v_elems v) (v_cap v) 0.

(** vector.h:135-138 cp_vector_elements, read for cp_vector_size elements *)
Definition vec_elements (v : cvec) : option bytes :=
  match v_len v with
  | 0 => Some []
  | _ => load (v_elems v) 0 (v_len v * v_esize v)
  end.

Inductive vop : Set :=
| VPush (element : bytes) | VPop | VNpop (n : nat) | VGet (i : nat) | VLast | VSize | VClear
| VElements.

(** what an operation returns *)
Inductive vout : Set :=
| OUnit | OElem (e : option bytes) | OSize (n : nat) | OBytes (s : bytes).

Definition vec_step (mem : option bytes) (v : cvec) (o : vop) : option (vout * cvec) :=
  match o with
  | VPush e => match vec_push mem v e with Some v => Some (OUnit, v) | None => None end
  | VPop => match vec_pop v with Some (e, v) => Some (OElem e, v) | None => None end
  | VNpop n => Some (OUnit, vec_npop v n)
  | VGet i => match vec_get v i with Some e => Some (OElem e, v) | None => None end
  | VLast => match vec_last v with Some e => Some (OElem e, v) | None => None end
  | VSize => Some (OSize (v_len v), v)
  | VClear => Some (OUnit, vec_clear v)
  | VElements => match vec_elements v with Some s => Some (OBytes s, v) | None => None end
  end.

(** a history: each operation with what the allocator does, should it be
    asked *)
Fixpoint vec_run (h : list (option bytes * vop)) (v : cvec) : option (list vout * cvec) :=
  match h with
  | [] => Some ([], v)
  | (mem, o) :: h =>
      match vec_step mem v o with
      | None => None
      | Some (r, v) => match vec_run h v with Some (rs, v) => Some (r :: rs, v) | None => None end
      end
  end.

(** ** String buffers *)

(** string_buffer.h:22-27 struct cp_string_buffer *)
Record sbuf := mksb { sb_buffer : block_ptr; sb_cap : nat; sb_len : nat }.

Definition sb_init : sbuf := mksb None 0 0.
(** string_buffer.h:30-33 cp_sb_reset *)
Definition sb_reset (b : sbuf) : sbuf := mksb (sb_buffer b) (sb_cap b) 0.
(** string_buffer.c:49-53 cp_sb_cleanup *)
Definition sb_cleanup (b : sbuf) : sbuf := mksb None 0 0.

Definition SB_BLOCK : nat := 8.

(** string_buffer.c:42-45 *)
Definition sb_write (b : sbuf) (s : bytes) : option (bool * sbuf) :=
  let n := List.length s in
  if sb_len b + n <? sb_cap b then
    match store (sb_buffer b) (sb_len b) s with
    | Some p => Some (true, mksb p (sb_cap b) (sb_len b + n))
    | None => None
    end
  else None.

(** string_buffer.c:25-46 cp_sb_append: whether 0 was returned, and the buffer *)
Definition sb_append (mem : option bytes) (b : sbuf) (s : bytes) : option (bool * sbuf) :=
  let n := List.length s in
  if sb_cap b <? sb_len b then None
  else
    if sb_cap b <=? sb_len b + n then
      let newcap := ((sb_len b + n) + 3 * SB_BLOCK / 2) / SB_BLOCK * SB_BLOCK in
      match mem with
      | None => Some (false, b)
      | Some junk => sb_write (mksb (Some (realloc junk (sb_buffer b) newcap)) newcap (sb_len b)) s
      end
    else sb_write b s.

(** string_buffer.h:35-43 cp_sb_data and cp_sb_length *)
Definition sb_data (b : sbuf) : option bytes :=
  match sb_len b with 0 => Some [] | n => load (sb_buffer b) 0 n end.

Inductive sbop : Set := SbAppend (s : bytes) | SbReset | SbCleanup | SbData.
Inductive sbout : Set := SbDone (ok : bool) | SbText (s : bytes).

Definition sb_step (mem : option bytes) (b : sbuf) (o : sbop) : option (sbout * sbuf) :=
  match o with
  | SbAppend s => match sb_append mem b s with Some (r, b) => Some (SbDone r, b) | None => None end
  | SbReset => Some (SbDone true, sb_reset b)
  | SbCleanup => Some (SbDone true, sb_cleanup b)
  | SbData => match sb_data b with Some s => Some (SbText s, b) | None => None end
  end.

Fixpoint sb_run (h : list (option bytes * sbop)) (b : sbuf) : option (list sbout * sbuf) :=
  match h with
  | [] => Some ([], b)
  | (mem, o) :: h =>
      match sb_step mem b o with
      | None => None
      | Some (r, b) => match sb_run h b with Some (rs, b) => Some (r :: rs, b) | None => None end
      end
  end.

(** ** The writer of error reports *)

(** errors.c:252-267: the loop, writing at [d]; [None]: outside of the block *)
Fixpoint write_labels_at (buf : bytes) (d : nat) (ls : list bytes) : option (bytes * nat) :=
  match ls with
  | [] => Some (buf, d)
  | l :: ls' =>
      match put_all buf d (B " ") with
      | None => None
      | Some buf =>
      match put_all buf (d + 1) l with
      | None => None
      | Some buf =>
          let d := d + 1 + List.length l in
          match ls' with
          | [] => Some (buf, d)
          | [_] => match put_all buf d (B " or") with
                   | Some buf => write_labels_at buf (d + 3) ls' | None => None end
          | _ :: _ :: _ => match put_all buf d (B ",") with
                   | Some buf => write_labels_at buf (d + 1) ls' | None => None end
          end
      end end
  end.

(** errors.c:196-276 error_report, called with buffer and cap NULL
    (errors.c:149-154): vsnprintf to a block of size 0, then a block of [len]
    bytes, the prefix, and the rest.  The result is the block. *)
Definition error_report_mem (junk : bytes) (col : coloring) (c : ascii) (ls : list bytes)
    : option bytes :=
  let prefix := et_prefix col c in
  let len := error_report_cap col c ls in
  let buf := realloc junk None len in
  match wexec len (WPrintf prefix) (buf, 0) with
  | None => None
  | Some (buf, plen) =>
      match put_all buf plen (fst (col_message col)) with
      | None => None
      | Some buf =>
          let d := plen + List.length (fst (col_message col)) in
          match put_all buf d (B "expected") with
          | None => None
          | Some buf =>
              match write_labels_at buf (d + 8) ls with
              | None => None
              | Some (buf, d) =>
                  match put_all buf d (snd (col_message col)) with
                  | None => None
                  | Some buf =>
                      let d := d + List.length (snd (col_message col)) in
                      if d <? len then put buf d NUL else None
                  end
              end
          end
      end
  end.
