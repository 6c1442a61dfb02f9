(** * Properties of detail strings and printed ASTs (C36, C37, C40) *)
From Coq Require Import List Bool Arith Ascii String Lia.
From Verif Require Import Peg QuickModel AstTypes AstModel DetailModel DetailProofs PrintModel
  CypherSpec PrintSpec PrintProofs.
Import ListNotations.

(** ** A small tree: the list [12, "a<newline>b"] *)

Definition at_ (a b : nat) : range := mkrange (mkpos 1 (S a) a) (mkpos 1 (S b) b).
Definition node_or (o : option node) : node :=
  match o with Some n => n | None => Node 0 T_NULL (at_ 0 0) [] [] 0 end.
Definition ex_int : node := node_or (construct 1 T_INTEGER [PS (B "12")] [] (at_ 1 3)).
Definition ex_str : node :=
  node_or (construct 2 T_STRING [PS ("a"%char :: "010"%char :: B "b")] [] (at_ 5 10)).
Definition ex_list : node :=
  fst (set_ordinals (node_or (construct 3 T_COLLECTION [PL [ex_int; ex_str]] [ex_int; ex_str] (at_ 0 11))) 9).

Lemma ex_made : Forall made (preorder ex_list).
Proof.
  repeat constructor.
  - exists 3, [PL [ex_int; ex_str]], [ex_int; ex_str], (at_ 0 11). eexists. split; vm_compute; reflexivity.
  - exists 1, [PS (B "12")], [], (at_ 1 3). eexists. split; vm_compute; reflexivity.
  - exists 2, [PS ("a"%char :: "010"%char :: B "b")], [], (at_ 5 10). eexists. split; vm_compute; reflexivity.
Qed.

Lemma ex_resolved : Forall (resolved (forest_ord [ex_list])) (preorder ex_list).
Proof.
  repeat constructor; intros x Hx; vm_compute in Hx.
  - destruct Hx as [<-|[<-|[]]]; vm_compute; discriminate.
  - contradiction.
  - contradiction.
Qed.

(** the detail string, computed *)
Definition detail_text (ord : nat -> option nat) (n : node) : bytes :=
  match detail_ops ord n with Some o => wtext o | None => [] end.

Lemma detail_text_ok : forall ord n, made n -> resolved ord n -> has_detail ord n (detail_text ord n).
Proof.
  intros ord n Hm Hr. unfold detail_text.
  destruct Hm as (id & ps & kids & r & m & Hc & Hf).
  destruct (construct_shape _ _ _ _ _ _ Hc) as (sh & Hs & Hh & _). rewrite Hf in Hh.
  destruct (detail_defined ord n sh Hs Hh) as [ops Hops]; [intros x Hx; apply Hr; exact Hx|].
  rewrite Hops. apply honest_has_detail. intros buf. apply detailstr_writes. exact Hops.
Qed.

(** ** C36 *)

(** Printing the detail of a node into a buffer of any size stays within the
    buffer, returns the length of one text that does not depend on the buffer,
    and leaves in the buffer as much of that text as it has room for, one byte
    being reserved. *)
Theorem detailstr_protocol : forall ord n, made n -> resolved ord n ->
  exists text, forall buf, exists b,
    detailstr ord n buf (List.length buf) = Some (b, List.length text) /\
    List.length b = List.length buf /\
    forall i, i < List.length text -> S i < List.length buf -> nth_error b i = nth_error text i.
Proof.
  intros ord n Hm Hr. destruct (detail_honest ord n Hm Hr) as [text Ht]. exists text. intros buf.
  destruct (Ht buf) as (b & Hb & Hl & Ha). exists b. split; [exact Hb|]. split; [exact Hl|].
  intros i H1 H2. apply Ha. lia.
Qed.
Print Assumptions detailstr_protocol.

Example detailstr_case :
  made ex_list /\ resolved (forest_ord [ex_list]) ex_list /\
  detailstr (forest_ord [ex_list]) ex_list (repeat "x"%char 12) 12 = Some (B "[@10, @11]xx", 10) /\
  detailstr (forest_ord [ex_list]) ex_list (repeat "x"%char 5) 5 = Some (B "[@10,", 10) /\
  detailstr (forest_ord [ex_list]) ex_list [] 0 = Some ([], 10).
Proof.
  split; [exact (Forall_inv ex_made)|]. split; [exact (Forall_inv ex_resolved)|].
  split; [vm_compute; reflexivity|]. split; vm_compute; reflexivity.
Qed.

(** The text is not always terminated, even where there is room. *)
Theorem detailstr_terminated_refuted : exists ord n buf b w,
  made n /\ resolved ord n /\ detailstr ord n buf (List.length buf) = Some (b, w) /\
  w < List.length buf /\ nth_error b w <> Some NUL.
Proof.
  exists (forest_ord [ex_list]), ex_list, (repeat "x"%char 12), (B "[@10, @11]xx"), 10.
  split; [exact (Forall_inv ex_made)|]. split; [exact (Forall_inv ex_resolved)|].
  split; [vm_compute; reflexivity|]. split; [vm_compute; lia|]. vm_compute. discriminate.
Qed.
Print Assumptions detailstr_terminated_refuted.

(** ** C37 *)

(** The reallocating printers return the complete text, whatever the initial
    buffer, unless the length of the text is exactly the initial capacity. *)
Theorem snprintf_realloc_complete_partial : forall junk text buf,
  List.length text <> List.length buf ->
  exists b, snprintf_realloc junk text buf = Some (b, List.length text) /\
    List.length text < List.length b /\
    firstn (List.length text) b = text /\ nth_error b (List.length text) = Some NUL.
Proof.
  intros junk text buf H. destruct (snprintf_realloc_complete junk text buf H) as (b & Hb & Hl & Hf & Hz).
  exists b. split; [exact Hb|]. split; [|split; assumption].
  apply nth_error_Some. congruence.
Qed.
Print Assumptions snprintf_realloc_complete_partial.

Theorem detailstr_realloc_complete_partial : forall junk ord n text buf,
  made n -> resolved ord n -> has_detail ord n text ->
  List.length text <> List.length buf ->
  exists b, detailstr_realloc junk ord n buf = Some (b, List.length text) /\
    List.length text < List.length b /\ firstn (List.length text) b = text.
Proof.
  intros junk ord n text buf Hm Hr Hd H. unfold detailstr_realloc.
  destruct (print_realloc_ok junk _ _ buf (has_detail_honest ord n text Hm Hr Hd) H) as (b & Hb & Hl & Ha).
  exists b. split; [exact Hb|].
  assert (Hlt : List.length text < List.length b).
  { rewrite Hl. destruct (List.length buf <? List.length text) eqn:E; [lia|]. apply Nat.ltb_ge in E. lia. }
  split; [exact Hlt|]. eapply firstn_agrees; eauto.
Qed.
Print Assumptions detailstr_realloc_complete_partial.

Example realloc_case :
  snprintf_realloc "?"%char (B "hello") (B "abc") = Some ((B "hello" ++ [NUL])%list, 5) /\
  snprintf_realloc "?"%char (B "hello") (B "abcdefgh") = Some ((B "hello" ++ NUL :: B "gh")%list, 5) /\
  has_detail (forest_ord [ex_list]) ex_list (B "[@10, @11]") /\
  detailstr_realloc "?"%char (forest_ord [ex_list]) ex_list (B "abc") = Some (B "[@10, @11]?", 10).
Proof.
  split; [vm_compute; reflexivity|]. split; [vm_compute; reflexivity|]. split; [|vm_compute; reflexivity].
  exact (detail_text_ok _ _ (Forall_inv ex_made) (Forall_inv ex_resolved)).
Qed.

(** The last byte is lost when the length is exactly the capacity. *)
Theorem snprintf_realloc_complete_refuted : exists junk text buf b,
  snprintf_realloc junk text buf = Some (b, List.length text) /\ firstn (List.length text) b <> text.
Proof.
  exists "?"%char, (B "hello"), (B "abcde"), (B "hell" ++ [NUL])%list.
  split; [vm_compute; reflexivity|]. vm_compute. discriminate.
Qed.
Print Assumptions snprintf_realloc_complete_refuted.

Theorem detailstr_realloc_complete_refuted : exists junk ord n text buf b,
  made n /\ resolved ord n /\ has_detail ord n text /\
  detailstr_realloc junk ord n buf = Some (b, List.length text) /\ firstn (List.length text) b <> text.
Proof.
  exists "?"%char, (forest_ord [ex_int]), ex_int, (B "12"), (B "xx"), ("1"%char :: [NUL]).
  assert (Hm : made ex_int) by exact (Forall_inv (Forall_inv_tail ex_made)).
  assert (Hr : resolved (forest_ord [ex_int]) ex_int) by (intros x Hx; vm_compute in Hx; contradiction).
  split; [exact Hm|]. split; [exact Hr|]. split.
  - exact (detail_text_ok _ _ Hm Hr).
  - split; [vm_compute; reflexivity|]. vm_compute. discriminate.
Qed.
Print Assumptions detailstr_realloc_complete_refuted.

(** ** C40 *)

(** cypher_ast_fprintv prints one line for each node, parents first, each made
    of the ordinal, the range, the type indented by the depth, and the detail,
    in columns wide enough for every node; whatever (unsigned)log10(0) is, and
    unless the length of a detail is exactly the capacity of the buffer. *)
Theorem cypher_ast_fprint_lines_partial : forall lz junk ord ac width detail ts buf,
  List.length buf = fprint_bufcap ->
  Forall (fun n => made n /\ resolved ord n /\ List.length (dec (nord n)) <= 10 /\
                   has_detail ord n (detail n)) (forest ts) ->
  never_exact fprint_bufcap (map (fun n => List.length (detail n)) (forest ts)) ->
  exists cols lines,
    fprintv lz junk ord ac width ts buf = Some (List.concat lines) /\
    Forall (fits cols) (outlines ts) /\
    Forall2 (line_of cols ac width detail) (outlines ts) lines.
Proof. exact fprintv_lines. Qed.
Print Assumptions cypher_ast_fprint_lines_partial.

(** numbers are printed in decimal: the digits have the value of the number and
    there is no superfluous zero *)
Theorem decimal_numbers : forall n,
  fold_left (fun a c => 10 * a + (nat_of_ascii c - 48)) (dec n) 0 = n /\
  (forall c s, dec n = c :: s -> s <> [] -> c <> "0"%char) /\
  Forall (fun c => 48 <= nat_of_ascii c <= 57) (dec n) /\ dec n <> [].
Proof.
  intros n. split; [exact (dec_value n)|].
  destruct (dec_shape n) as (c & s & Hd & Hz & Hf). split.
  - intros c' s' Hd' Hs'. rewrite Hd in Hd'. inversion Hd'; subst. apply Hz.
    destruct n; [|lia]. vm_compute in Hd. inversion Hd; subst. now destruct Hs'.
  - split; [|rewrite Hd; discriminate]. eapply Forall_impl; [|exact Hf].
    intros x (d & Hlt & ->). do 10 (destruct d as [|d]; [vm_compute; lia|]). lia.
Qed.
Print Assumptions decimal_numbers.

Example fprint_case :
  fprintv 0 "?"%char (forest_ord [ex_list]) ac_none 0 [ex_list] (repeat "?"%char fprint_bufcap) =
  Some ((B " @9  0..11  collection  [@10, @11]" ++ NLc ::
         B "@10  1..3   > integer   12" ++ NLc ::
         B "@11  5..10  > string    ""a\nb""" ++ [NLc])%list).
Proof. vm_compute. reflexivity. Qed.

Example fprint_wrapped_case :
  fprintv 0 "?"%char (forest_ord [ex_list]) ac_none 30 [ex_list] (repeat "?"%char fprint_bufcap) =
  Some ((B " @9  0..11  collection  [@10, " ++ NLc :: spaces 24 ++ B "@11]" ++ NLc ::
         B "@10  1..3   > integer   12" ++ NLc ::
         B "@11  5..10  > string    ""a\nb""" ++ [NLc])%list).
Proof. vm_compute. reflexivity. Qed.

Example fprint_hypotheses : exists detail,
  Forall (fun n => made n /\ resolved (forest_ord [ex_list]) n /\ List.length (dec (nord n)) <= 10 /\
                   has_detail (forest_ord [ex_list]) n (detail n)) (forest [ex_list]) /\
  never_exact fprint_bufcap (map (fun n => List.length (detail n)) (forest [ex_list])).
Proof.
  set (ord := forest_ord [ex_list]).
  exists (detail_text ord). split.
  - unfold forest. cbn [flat_map]. rewrite app_nil_r. apply Forall_forall. intros n Hn.
    split; [exact (proj1 (Forall_forall _ _) ex_made n Hn)|].
    split; [exact (proj1 (Forall_forall _ _) ex_resolved n Hn)|].
    split; [|exact (detail_text_ok _ _ (proj1 (Forall_forall _ _) ex_made n Hn) (proj1 (Forall_forall _ _) ex_resolved n Hn))].
    vm_compute in Hn. destruct Hn as [<-|[<-|[<-|[]]]]; vm_compute; lia.
  - vm_compute. repeat split; discriminate.
Qed.

(** A string of 1022 characters: its detail has 1024 and is printed without its
    closing quote. *)
Definition ex_long : node :=
  node_or (construct 1 T_STRING [PS (repeat "s"%char (32 * 32 - 2))] [] (at_ 0 9)).

Theorem cypher_ast_fprint_lines_refuted : exists n buf,
  made n /\ List.length buf = fprint_bufcap /\
  fprintv 0 "?"%char (forest_ord [n]) ac_none 0 [n] buf =
  Some ((B "@0  0..9  string  """ ++ repeat "s"%char (32 * 32 - 2) ++ [NLc])%list).
Proof.
  exists ex_long, (repeat "?"%char fprint_bufcap). split.
  - exists 1, [PS (repeat "s"%char (32 * 32 - 2))], [], (at_ 0 9). eexists. split; vm_compute; reflexivity.
  - split; vm_compute; reflexivity.
Qed.
Print Assumptions cypher_ast_fprint_lines_refuted.
