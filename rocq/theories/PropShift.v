(** * The configuration: initial position, initial ordinal (C42), colorization (C47)

    Specification: ShiftSpec.v.  Model: CypherParse.v (parser.c, parser_config.c). *)
From Coq Require Import List Bool Arith ZArith Ascii String.
From Verif Require Import Peg QuickModel ErrModel AstTypes AstModel CypherExec CypherParse CypherLoop PropCypher ShiftSpec ShiftProofs
  ColorSpec ColorProofs.
Import ListNotations.

(** Starting at position [p] with ordinal [o] gives what starting at line 1, column
    1, offset 0 with ordinal 0 gives, with all positions (of segments, nodes,
    errors and *last) translated by [p] and all ordinals by [o]; the return
    value and the number of segments are the same, if the callback answers the same to
    the translated segments.  Also when the parse ends in a failed assertion. *)
Theorem config_translates_parse : forall p o col la cb fl inp,
  parse_each (mkcf p o col) la cb fl inp =
  translate_presult p o (parse_each (mkcf position_zero 0 col) la (fun segs => cb (map (translate_segment p o) segs)) fl inp).
Proof. exact each_shift. Qed.
Print Assumptions config_translates_parse.

(** ... and for the functions that return a parse result *)
Theorem config_translates_result : forall p o col la fl inp,
  parse_all (mkcf p o col) la fl inp = translate_all p o (parse_all (mkcf position_zero 0 col) la fl inp).
Proof. exact all_shift. Qed.
Print Assumptions config_translates_result.

(** [translate] on a position in the first line and on one after it *)
Example translate_first : translate (mkpos 10 5 100) (mkpos 1 8 7) = mkpos 10 12 107.
Proof. reflexivity. Qed.
Example translate_later : translate (mkpos 10 5 100) (mkpos 3 8 30) = mkpos 12 8 130.
Proof. reflexivity. Qed.

(** A program with an error, parsed in the middle of another file: the segments'
    ranges, the error's position, the first node's range and ordinal. *)
Definition embedded : bytes := B "RETURN 1;" ++ NL :: B "  X;".
Definition digest (r : presult) : list (range * list position * option (range * nat)) :=
  match r with
  | PRet _ segs _ => map (fun s => (s_range s, map pe_pos (s_errors s),
                                    option_map (fun n => (nrng n, nord n)) (hd_error (s_roots s)))) segs
  | _ => []
  end.

Example embedded_zero : digest (parse_each std_config whole never plain embedded) =
  [ (mkrange (mkpos 1 1 0) (mkpos 1 10 9), [], Some (mkrange (mkpos 1 1 0) (mkpos 1 10 9), 0));
    (mkrange (mkpos 1 10 9) (mkpos 2 5 14), [mkpos 2 3 12], Some (mkrange (mkpos 2 3 12) (mkpos 2 4 13), 6)) ].
Proof. vm_compute. reflexivity. Qed.

Example embedded_meets : digest (parse_each (mkcf (mkpos 7 20 90) 50 no_colorization) whole never plain embedded) =
  [ (mkrange (mkpos 7 20 90) (mkpos 7 29 99), [], Some (mkrange (mkpos 7 20 90) (mkpos 7 29 99), 50));
    (mkrange (mkpos 7 29 99) (mkpos 8 5 104), [mkpos 8 3 102], Some (mkrange (mkpos 8 3 102) (mkpos 8 4 103), 56)) ].
Proof. vm_compute. reflexivity. Qed.

(** * Colorization (C47)

    Specification: ColorSpec.v. *)

(** Two calls that differ in the colorization of error messages: the same return
    value, the same number of segments with the same ranges, trees and flags, and
    the same errors up to the color codes around the parts of their messages;
    for callbacks that do not look at the colors. *)
Theorem colorization_changes_messages_only : forall x y ps o la cb cb' fl inp,
  (forall l l', Forall2 (same_segment x y) l l' -> cb' l' = cb l) ->
  same_outcome x y (parse_each (mkcf ps o x) la cb fl inp) (parse_each (mkcf ps o y) la cb' fl inp).
Proof. exact each_color. Qed.
Print Assumptions colorization_changes_messages_only.

Definition messages (r : presult) : list bytes :=
  match r with PRet _ segs _ => flat_map (fun s => map pe_msg (s_errors s)) segs | _ => [] end.

Definition hints : bytes := B " ';', ':', a statement option, a query hint, a clause or a schema command".

Example messages_plain : messages (parse_each std_config whole never plain (B "X; RETURN 1;")) =
  [B "Invalid input 'X': expected" ++ hints].
Proof. vm_compute. reflexivity. Qed.
Example messages_ansi : messages (parse_each (mkcf position_zero 0 ansi_colorization) whole never plain (B "X; RETURN 1;")) =
  [ESC :: B "[1m" ++ ESC :: B "[31mInvalid input" ++ ESC :: B "[0m " ++ ESC :: B "[1m'X'" ++ ESC :: B "[0m: " ++
   ESC :: B "[1mexpected" ++ hints ++ ESC :: B "[0m"].
Proof. vm_compute. reflexivity. Qed.
Example colored_meets : colored ansi_colorization (B "'X'") hints =
  ESC :: B "[1m" ++ ESC :: B "[31mInvalid input" ++ ESC :: B "[0m " ++ ESC :: B "[1m'X'" ++ ESC :: B "[0m: " ++
  ESC :: B "[1mexpected" ++ hints ++ ESC :: B "[0m".
Proof. vm_compute. reflexivity. Qed.
