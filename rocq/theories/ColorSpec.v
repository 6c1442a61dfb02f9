(** * What may differ between two colorizations (specification for C47) *)
From Coq Require Import List.
From Verif Require Import Peg QuickModel ErrModel AstModel CypherExec CypherParse.
Import ListNotations.

(** A message in the colors [c]:
    "<error>Invalid input</error> <token>CHAR</token>: <message>expected LABELS</message>" *)
Definition colored (c : coloring) (ch labels : bytes) : bytes :=
  fst (col_error c) ++ B "Invalid input" ++ snd (col_error c) ++ B " " ++
  fst (col_token c) ++ ch ++ snd (col_token c) ++ B ": " ++
  fst (col_message c) ++ B "expected" ++ labels ++ snd (col_message c).

(** the same message in the colors [x] and [y] *)
Definition same_message (x y : coloring) (m m' : bytes) : Prop :=
  exists ch labels, m = colored x ch labels /\ m' = colored y ch labels.

Definition same_error (x y : coloring) (a b : perror) : Prop :=
  pe_pos b = pe_pos a /\ pe_ctx b = pe_ctx a /\ same_message x y (pe_msg a) (pe_msg b).

(** segments that differ in the colors of their errors' messages only *)
Definition same_segment (x y : coloring) (s t : segment) : Prop :=
  s_range t = s_range s /\ s_roots t = s_roots s /\ s_nnodes t = s_nnodes s /\
  s_directive t = s_directive s /\ s_eof t = s_eof s /\ Forall2 (same_error x y) (s_errors s) (s_errors t).

Definition same_outcome (x y : coloring) (r s : presult) : Prop :=
  match r, s with
  | PRet ret segs last, PRet ret' segs' last' => ret' = ret /\ last' = last /\ Forall2 (same_segment x y) segs segs'
  | PFailed, PFailed | PAssert, PAssert | PInvalid, PInvalid | PUninit, PUninit | PFuel, PFuel => True
  | _, _ => False
  end.
