(** * Predicting the trees that actions build

    [texec] follows the actions predicted by Forward.v.  Nodes are known by
    handles: the n-th entry of [x_heap] is what the n-th group of nodes says. *)
From Coq Require Import List Bool Arith Ascii String Lia.
From Verif Require Import Peg PegProofs QuickModel CypherSyntax CypherGrammar OperModel ErrModel CypherMatch
  AstTypes AstModel CypherBuild CypherExec CypherParse CypherSpec TraceSpec CypherRound Forward TermSpec.
Import ListNotations.

(** what the actions of a hole do: append to the string buffer; make a node and
    return it; replace the node in variable 0 of 6, and in the block, by another;
    add operators to the stack and nodes to the sequence, which can change all
    but the first of [k + 1] variables; add nodes to the sequence, where the first
    of [k + 1] variables is a node and stays, is null and stays, or can change as
    well; add nodes to the sequence, which can change those of [n] variables that
    are in [ws]; nothing *)
Inductive skind := SNode | SNull | SLost.
Inductive heff :=
| HAppend (b : bytes)
| HNode (t : term)
| HFold (k : nat) (f : term -> term)
| HChain (k : nat) (os : list oper) (ts : list term)
| HSeq (f : skind) (k : nat) (ts : list term)
| HGrow (n : nat) (ws : list nat) (ts : list term)
| HNone.

Record xblk := mkxb { xb_st : option (list tok); xb_seq : list nat; xb_kids : list nat }.
Record xprev := mkxp { xp_st : option (list tok); xp_en : list tok; xp_seq : list nat; xp_kids : list nat }.
(** [x_bseq], [x_bkids]: what was added to the block that was open at the start *)
Record xst := mkx {
  x_frames : list (list (option (option nat)));
  x_ret : option (option nat);
  x_blocks : list xblk; x_bseq : list nat; x_bkids : list nat;
  x_prev : option xprev;
  x_ops : list oper;
  x_sb : option bytes;
  x_res : option (option nat);
  x_eof : bool;
  x_heap : list (list term) }.

Definition upd_frames (x : xst) v := mkx v (x_ret x) (x_blocks x) (x_bseq x) (x_bkids x) (x_prev x) (x_ops x) (x_sb x) (x_res x) (x_eof x) (x_heap x).
Definition upd_ret (x : xst) v := mkx (x_frames x) v (x_blocks x) (x_bseq x) (x_bkids x) (x_prev x) (x_ops x) (x_sb x) (x_res x) (x_eof x) (x_heap x).
Definition upd_sb (x : xst) v := mkx (x_frames x) (x_ret x) (x_blocks x) (x_bseq x) (x_bkids x) (x_prev x) (x_ops x) v (x_res x) (x_eof x) (x_heap x).
Definition upd_ops (x : xst) v := mkx (x_frames x) (x_ret x) (x_blocks x) (x_bseq x) (x_bkids x) (x_prev x) v (x_sb x) (x_res x) (x_eof x) (x_heap x).
Definition upd_res (x : xst) v := mkx (x_frames x) (x_ret x) (x_blocks x) (x_bseq x) (x_bkids x) (x_prev x) (x_ops x) (x_sb x) v (x_eof x) (x_heap x).
Definition upd_eof (x : xst) := mkx (x_frames x) (x_ret x) (x_blocks x) (x_bseq x) (x_bkids x) (x_prev x) (x_ops x) (x_sb x) (x_res x) true (x_heap x).
Definition upd_prev (x : xst) v := mkx (x_frames x) (x_ret x) (x_blocks x) (x_bseq x) (x_bkids x) v (x_ops x) (x_sb x) (x_res x) (x_eof x) (x_heap x).
Definition upd_blocks (x : xst) v := mkx (x_frames x) (x_ret x) v (x_bseq x) (x_bkids x) (x_prev x) (x_ops x) (x_sb x) (x_res x) (x_eof x) (x_heap x).
Definition upd_heap (x : xst) v := mkx (x_frames x) (x_ret x) (x_blocks x) (x_bseq x) (x_bkids x) (x_prev x) (x_ops x) (x_sb x) (x_res x) (x_eof x) v.

(** add to the children, to the sequence of the last block *)
Definition add_kids (x : xst) (hs : list nat) : xst :=
  match x_blocks x with
  | b :: bs => upd_blocks x (mkxb (xb_st b) (xb_seq b) (xb_kids b ++ hs) :: bs)
  | [] => mkx (x_frames x) (x_ret x) [] (x_bseq x) (x_bkids x ++ hs) (x_prev x) (x_ops x) (x_sb x) (x_res x) (x_eof x) (x_heap x)
  end.
Definition add_seq (x : xst) (hs : list nat) : xst :=
  match x_blocks x with
  | b :: bs => upd_blocks x (mkxb (xb_st b) (xb_seq b ++ hs) (xb_kids b) :: bs)
  | [] => mkx (x_frames x) (x_ret x) [] (x_bseq x ++ hs) (x_bkids x) (x_prev x) (x_ops x) (x_sb x) (x_res x) (x_eof x) (x_heap x)
  end.

Definition term_is (t : term) (target : asttype) : bool :=
  match t with T ty _ => match instanceof_ty ty target with Some b => b | None => false end end.

(** the slots in [ws] are no longer known *)
Fixpoint blank {X : Type} (ws : list nat) (i : nat) (fr : list (option X)) : list (option X) :=
  match fr with
  | [] => []
  | v :: fr => (if existsb (Nat.eqb i) ws then None else v) :: blank ws (S i) fr
  end.

Section Texec.
Variable eff : nat -> heff.
(** parameters only so that computation leaves them alone *)
Variable slice_of : list tok -> list tok -> bytes.
Variable trimf : bytes -> bytes.
Variable chainf : list term -> list oper -> list oper * list oper.

Definition xget (x : xst) (k : nat) : option (option nat) :=
  match x_frames x with
  | f :: _ => match nth_error f k with Some (Some v) => Some v | _ => None end
  | [] => None
  end.
Definition xput (x : xst) (k : nat) (v : option (option nat)) : option xst :=
  match x_frames x with
  | f :: fs => match upd f k v with Some f' => Some (upd_frames x (f' :: fs)) | None => None end
  | [] => None
  end.
Definition xarg (x : xst) (a : arg) : option (option nat) :=
  match a with ANull => Some None | AVar k => xget x k end.
Fixpoint xargs (x : xst) (l : list arg) : option (list (option nat)) :=
  match l with
  | [] => Some []
  | a :: l => match xarg x a, xargs x l with Some v, Some vs => Some (v :: vs) | _, _ => None end
  end.
Definition grp (x : xst) (h : nat) : list term := nth h (x_heap x) [].
Definition grps (x : xst) (hs : list nat) : list term := flat_map (grp x) hs.
Definition memb (h : nat) (l : list nat) : bool := existsb (Nat.eqb h) l.

Definition xblock (p : xprev) : option bytes :=
  match xp_st p with Some w => Some (slice_of w (xp_en p)) | None => None end.

Definition xbparam (x : xst) (p : xprev) (args : list (option nat)) (ops : list oper) (b : bparam)
    : option (tfield * list oper) :=
  match b with
  | BArg k =>
      match nth_error args k with
      | Some None => Some (TNode None, ops)
      | Some (Some h) =>
          if memb h (xp_kids p) then match grp x h with [t] => Some (TNode (Some t), ops) | _ => None end else None
      | None => None
      end
  | BNull => Some (TNode None, ops)
  | BLitB v => Some (TBool v, ops)
  | BLitD d => Some (TDir d, ops)
  | BOpPop => match ops with [] => None | o :: r => Some (TOper (Some o), r) end
  | BStrbuf => match x_sb x with Some s => Some (TStr s, ops) | None => None end
  | BBlock => match xblock p with Some s => Some (TStr s, ops) | None => None end
  | BBlockTrim => match xblock p with Some s => Some (TStr (trimf s), ops) | None => None end
  | BChainOps => let (os, r) := chainf (grps x (xp_seq p)) ops in Some (TOpers os, r)
  | _ =>
      if forallb (fun h => memb h (xp_kids p)) (xp_seq p) then
        let ts := grps x (xp_seq p) in
        match b with
        | BSeqWhile v t => Some (TList (take_while (fun u => Bool.eqb (term_is u t) v) ts), ops)
        | BSeqAfter v t => Some (TList (drop_while (fun u => Bool.eqb (term_is u t) v) ts), ops)
        | BSeqPairs => Some (TList (firstn (2 * Nat.div2 (List.length ts)) ts), ops)
        | _ => Some (TList ts, ops)
        end
      else None
  end.
Fixpoint xbparams (x : xst) (p : xprev) (args : list (option nat)) (ops : list oper) (l : list bparam)
    : option (list tfield * list oper) :=
  match l with
  | [] => Some ([], ops)
  | b :: l =>
      match xbparam x p args ops b with
      | None => None
      | Some (f, ops1) =>
          match xbparams x p args ops1 l with
          | None => None
          | Some (fs, ops2) => Some (f :: fs, ops2)
          end
      end
  end.

Definition xbuild (x : xst) (c : ctor) (args : list (option nat)) : option (nat * xst) :=
  match x_prev x with
  | None => None
  | Some p0 =>
      let (ty, bps) := build_call c in
      let p := if terminal ty then mkxp (xp_st p0) (xp_en p0) (xp_seq p0) [] else p0 in
      match xbparams x p args (x_ops x) bps with
      | None => None
      | Some (fs, ops) =>
          let h := List.length (x_heap x) in
          Some (h, add_kids (upd_prev (upd_ops (upd_heap x (x_heap x ++ [[T ty fs]])) ops) None) [h])
      end
  end.

Definition xrhs (x : xst) (r : rhs) : option (option nat * xst) :=
  match r with
  | RArg a => match xarg x a with Some v => Some (v, x) | None => None end
  | RMk c l =>
      match xargs x l with
      | Some vs => match xbuild x c vs with Some (h, x') => Some (Some h, x') | None => None end
      | None => None
      end
  end.

Fixpoint xstmt (s : stmt) (x : xst) : option xst :=
  match s with
  | SFinished => Some x
  | SResult a => match xarg x a with Some v => Some (upd_res x (Some v)) | None => None end
  | SSeqAdd a => match xarg x a with Some (Some h) => Some (add_seq x [h]) | _ => None end
  | SStrReset => Some (upd_sb x (Some []))
  | SStrAppend b => Some (upd_sb x (match x_sb x with Some s => Some (s ++ b) | None => None end))
  | SStrBlock =>
      Some (upd_sb x (match x_sb x, x_prev x with
                      | Some s, Some p => match xblock p with Some t => Some (s ++ t) | None => None end
                      | _, _ => None
                      end))
  | SEof => Some (upd_eof x)
  | SOpPush o => Some (upd_ops x (o :: x_ops x))
  | SDrop r => match xrhs x r with Some (_, x') => Some x' | None => None end
  | SLet LRet r => match xrhs x r with Some (v, x') => Some (upd_ret x' (Some v)) | None => None end
  | SLet (LVar k) r => match xrhs x r with Some (v, x') => xput x' k (Some v) | None => None end
  | SIfNotIdent a s =>
      match xarg x a with
      | Some (Some h) =>
          match grp x h with
          | [t] => if term_is t T_IDENTIFIER then Some x else xstmt s x
          | _ => None
          end
      | Some None => xstmt s x
      | None => None
      end
  end.
Fixpoint xstmts (l : list stmt) (x : xst) : option xst :=
  match l with
  | [] => Some x
  | s :: l => match xstmt s x with Some x' => xstmts l x' | None => None end
  end.

Definition xclose (x : xst) (w : list tok) : option (xblk * xst) :=
  match x_blocks x with
  | b :: bs => Some (b, upd_prev (upd_blocks x bs) (Some (mkxp (xb_st b) w (xb_seq b) (xb_kids b))))
  | [] => None
  end.

Definition xact (a : action) (w : list tok) (x : xst) : option xst :=
  match a with
  | TPush n => Some (upd_frames x (repeat None n :: x_frames x))
  | TPop _ => match x_frames x with _ :: fs => Some (upd_frames x fs) | [] => None end
  | TSet k => xput x k (x_ret x)
  | TBlockStart => Some (upd_prev (upd_blocks x (mkxb (Some w) [] [] :: x_blocks x)) None)
  | TBlockEnd => match xclose x w with Some (_, x') => Some x' | None => None end
  | TBlockReplace =>
      match xclose x w with
      | Some (_, x') => Some (upd_blocks x' (mkxb (Some w) [] [] :: x_blocks x'))
      | None => None
      end
  | TBlockMerge =>
      match xclose x w with
      | Some (b, x') => Some (upd_prev (add_kids x' (xb_kids b)) (Some (mkxp (xb_st b) w (xb_seq b) [])))
      | None => None
      end
  | TDo l => xstmts l x
  end.

Definition forget (x : xst) : xst :=
  mkx (x_frames x) None (x_blocks x) (x_bseq x) (x_bkids x) None (x_ops x) None (x_res x) (x_eof x) (x_heap x).

Definition xhole (i : nat) (x0 : xst) : option xst :=
  let x := forget x0 in
  let h := List.length (x_heap x) in
  match eff i with
  | HAppend b => Some (upd_sb x (match x_sb x0 with Some s => Some (s ++ b) | None => None end))
  | HNode t => Some (upd_ret (add_kids (upd_heap x (x_heap x ++ [[t]])) [h]) (Some (Some h)))
  | HFold k f =>
      match x_frames x, x_blocks x with
      | (Some (Some h0) :: sl) :: fs, mkxb _ [] [h1] :: bs =>
          match grp x h0 with
          | [t0] =>
              if Nat.eqb h0 h1 && Nat.eqb (List.length sl) k
              then Some (upd_heap (upd_blocks (upd_frames x ((Some (Some h) :: map (fun _ => None) sl) :: fs))
                                     (mkxb None [] [h] :: bs)) (x_heap x ++ [[f t0]]))
              else None
          | _ => None
          end
      | _, _ => None
      end
  | HChain k os ts =>
      match x_frames x with
      | (Some (Some h0) :: sl) :: fs =>
          if Nat.eqb (List.length sl) k then
          Some (upd_ops (add_kids (add_seq (upd_heap (upd_frames x ((Some (Some h0) :: map (fun _ => None) sl) :: fs))
             (x_heap x ++ [ts])) [h]) [h]) (rev os ++ x_ops x))
          else None
      | _ => None
      end
  | HSeq f k ts =>
      match x_frames x with
      | (v0 :: sl) :: fs =>
          if Nat.eqb (List.length sl) k then
          match f, v0 with
          | SNode, Some (Some _) | SNull, Some None | SLost, _ =>
              Some (add_kids (add_seq (upd_heap (upd_frames x (((match f with SLost => None | _ => v0 end) :: map (fun _ => None) sl) :: fs))
                (x_heap x ++ [ts])) [h]) [h])
          | _, _ => None
          end
          else None
      | _ => None
      end
  | HGrow n ws ts =>
      match x_frames x with
      | fr :: fs =>
          if Nat.eqb (List.length fr) n
          then Some (add_kids (add_seq (upd_heap (upd_frames x (blank ws 0 fr :: fs)) (x_heap x ++ [ts])) [h]) [h])
          else None
      | _ => None
      end
  | HNone => Some x0
  end.

Definition xitem (i : item) (x : xst) : option xst :=
  match i with TA a w => xact a w x | TH i => xhole i x end.

Fixpoint texec (l : list item) (x : xst) : option xst :=
  match l with
  | [] => Some x
  | i :: l => match xitem i x with Some x' => texec l x' | None => None end
  end.
End Texec.

(** ** Soundness *)
Definition grow (b : block) (ss ks : list node) : block :=
  mkblk (b_top b) (b_bstart b) (b_bend b) (b_rstart b) (b_rend b) (b_seq b ++ ss) (b_kids b ++ ks).

Section Sound.
Variable inp : bytes.

(** what [heff] says *)
Definition kept (a a' : astate) : Prop :=
  a_result a' = a_result a /\ a_eof a' = a_eof a /\ a_fresh a <= a_fresh a'.
Definition between (a a' : astate) (n : node) : Prop := a_fresh a <= nid n < a_fresh a'.
Definition slot_ok (f : skind) (v : option (option node)) (a : astate) : Prop :=
  match f with
  | SNode => exists n, v = Some (Some n) /\ nid n < a_fresh a
  | SNull => v = Some None
  | SLost => True
  end.
Definition performs (h : heff) (l : list (action * nat)) : Prop :=
  forall e a a' b bs, e_inp e = inp -> exec e l a = XOk a' -> a_blocks a = b :: bs ->
  match h with
  | HAppend t => kept a a' /\ a_frames a' = a_frames a /\ a_blocks a' = a_blocks a /\ a_ops a' = a_ops a /\
      a_sb a' = a_sb a ++ t
  | HNode t => kept a a' /\ a_frames a' = a_frames a /\ a_ops a' = a_ops a /\
      exists n, term_of n = t /\ between a a' n /\ a_ret a' = Some n /\ a_blocks a' = grow b [] [n] :: bs
  | HFold k f => forall n0 sl fs, a_frames a = (Some (Some n0) :: sl) :: fs -> List.length sl = k -> b_seq b = [] -> b_kids b = [n0] ->
      nid n0 < a_fresh a -> bs <> [] ->
      kept a a' /\ a_ops a' = a_ops a /\
      exists n sl' b', term_of n = f (term_of n0) /\ between a a' n /\
        a_frames a' = (Some (Some n) :: sl') :: fs /\ List.length sl' = List.length sl /\
        a_blocks a' = b' :: bs /\ b_seq b' = [] /\ b_kids b' = [n]
  | HChain k os ts => forall n0 sl fs, a_frames a = (Some (Some n0) :: sl) :: fs -> List.length sl = k ->
      nid n0 < a_fresh a ->
      kept a a' /\ a_ops a' = rev os ++ a_ops a /\
      exists ns sl', map term_of ns = ts /\ Forall (between a a') ns /\ NoDup (map nid ns) /\
        a_frames a' = (Some (Some n0) :: sl') :: fs /\ List.length sl' = List.length sl /\
        a_blocks a' = grow b ns ns :: bs
  | HSeq f k ts => forall v sl fs, a_frames a = (v :: sl) :: fs -> List.length sl = k -> slot_ok f v a ->
      kept a a' /\ a_ops a' = a_ops a /\
      exists ns v' sl', map term_of ns = ts /\ Forall (between a a') ns /\ NoDup (map nid ns) /\
        a_frames a' = (v' :: sl') :: fs /\ (f <> SLost -> v' = v) /\ List.length sl' = List.length sl /\
        a_blocks a' = grow b ns ns :: bs
  | HGrow n ws ts => forall fr fs, a_frames a = fr :: fs -> List.length fr = n ->
      kept a a' /\ a_ops a' = a_ops a /\
      exists ns fr', map term_of ns = ts /\ Forall (between a a') ns /\ NoDup (map nid ns) /\
        a_frames a' = fr' :: fs /\ List.length fr' = n /\ (forall i, ~ In i ws -> nth_error fr' i = nth_error fr i) /\
        a_blocks a' = grow b ns ns :: bs
  | HNone => a' = a
  end.

Variable rest_of : nat -> bytes.
Variable eff : nat -> heff.
Notation where_ := (where_ inp rest_of).
Definition slice_real (a b : list tok) : bytes := slice inp (where_ a) (where_ b).
Definition chain_real (ts : list term) (ops : list oper) : list oper * list oper :=
  let n := List.length ts in (rev (firstn (n - 1) ops), skipn (n - 1) ops).
Notation texec := (texec eff slice_real trim chain_real).

Definition lst (rho : list (list node)) (hs : list nat) (ns : list node) : Prop :=
  exists gs, Forall2 (fun h g => nth_error rho h = Some g) hs gs /\ ns = List.concat gs.
Definition vrel (rho : list (list node)) (v : option nat) (n : option node) : Prop :=
  match v, n with
  | None, None => True
  | Some h, Some n => nth_error rho h = Some [n]
  | _, _ => False
  end.
Definition srel (rho : list (list node)) (v : option (option nat)) (n : option (option node)) : Prop :=
  match v with None => True | Some v => exists m, n = Some m /\ vrel rho v m end.
Definition strel (st : option (list tok)) (p : nat) : Prop :=
  match st with None => True | Some w => p = where_ w end.
Definition brel (rho : list (list node)) (x : xblk) (b : block) : Prop :=
  strel (xb_st x) (b_bstart b) /\ lst rho (xb_seq x) (b_seq b) /\ lst rho (xb_kids x) (b_kids b).
Definition prel (rho : list (list node)) (x : option xprev) (b : option block) : Prop :=
  match x with
  | None => True
  | Some x => exists q, b = Some q /\ strel (xp_st x) (b_bstart q) /\ b_bend q = where_ (xp_en x) /\
      lst rho (xp_seq x) (b_seq q) /\ lst rho (xp_kids x) (b_kids q)
  end.

(** the surroundings: frames, open block, further blocks, result, end-of-input flag *)
Record surr := mks {
  u_frames : list (list (option (option node))); u_block : block; u_blocks : list block;
  u_result : option node; u_eof : bool }.

Record rel (u : surr) (rho : list (list node)) (x : xst) (a : astate) : Prop := mkrel {
  r_heap : x_heap x = map (map term_of) rho;
  r_nodup : NoDup (map nid (List.concat rho));
  r_old : Forall (fun n => nid n < a_fresh a) (List.concat rho);
  r_frames : exists fs, a_frames a = fs ++ u_frames u /\ Forall2 (Forall2 (srel rho)) (x_frames x) fs;
  r_blocks : exists bs ss ks, a_blocks a = bs ++ grow (u_block u) ss ks :: u_blocks u /\
     Forall2 (brel rho) (x_blocks x) bs /\ lst rho (x_bseq x) ss /\ lst rho (x_bkids x) ks;
  r_prev : prel rho (x_prev x) (a_prev a);
  r_ops : a_ops a = x_ops x;
  r_ret : match x_ret x with None => True | Some v => vrel rho v (a_ret a) end;
  r_sb : match x_sb x with None => True | Some b => a_sb a = b end;
  r_res : match x_res x with None => a_result a = u_result u | Some v => vrel rho v (a_result a) end;
  r_eof : a_eof a = x_eof x || u_eof u }.

(** *** more nodes *)
Lemma Forall2_impl : forall (X Y : Type) (P Q : X -> Y -> Prop), (forall a b, P a b -> Q a b) ->
  forall l1 l2, Forall2 P l1 l2 -> Forall2 Q l1 l2.
Proof. intros X Y P Q H l1 l2 F. induction F; constructor; auto. Qed.
Lemma nth_ext : forall (rho : list (list node)) r2 h g, nth_error rho h = Some g -> nth_error (rho ++ r2) h = Some g.
Proof. intros rho r2 h g H. rewrite nth_error_app1; [exact H|]. apply nth_error_Some. congruence. Qed.
Lemma lst_ext : forall rho r2 hs ns, lst rho hs ns -> lst (rho ++ r2) hs ns.
Proof.
  intros rho r2 hs ns (gs & H & ->). exists gs. split; [|reflexivity].
  eapply Forall2_impl; [|exact H]. intros h g. apply nth_ext.
Qed.
Lemma vrel_ext : forall rho r2 v n, vrel rho v n -> vrel (rho ++ r2) v n.
Proof. intros rho r2 [h|] [n|]; cbn; auto. apply nth_ext. Qed.
Lemma srel_ext : forall rho r2 v n, srel rho v n -> srel (rho ++ r2) v n.
Proof. intros rho r2 [v|] n; cbn; auto. intros (m & -> & H). eauto using vrel_ext. Qed.
Lemma brel_ext : forall rho r2 x b, brel rho x b -> brel (rho ++ r2) x b.
Proof. intros rho r2 x b (A & B & C). split; [exact A|]. eauto using lst_ext. Qed.
Lemma prel_ext : forall rho r2 x b, prel rho x b -> prel (rho ++ r2) x b.
Proof. intros rho r2 [x|] b; cbn; auto. intros (q & A & B & C & D & E). exists q. eauto 8 using lst_ext. Qed.
Lemma lst_app : forall rho h1 n1 h2 n2, lst rho h1 n1 -> lst rho h2 n2 -> lst rho (h1 ++ h2) (n1 ++ n2).
Proof.
  intros rho h1 n1 h2 n2 (g1 & A1 & ->) (g2 & A2 & ->). exists (g1 ++ g2).
  split; [apply Forall2_app; auto|rewrite concat_app; reflexivity].
Qed.
Lemma lst_nil : forall rho, lst rho [] [].
Proof. intros. exists []. split; [constructor|reflexivity]. Qed.
Lemma lst_new : forall rho g, lst (rho ++ [g]) [List.length rho] g.
Proof.
  intros. exists [g]. split; [constructor; [|constructor]|cbn; rewrite app_nil_r; reflexivity].
  rewrite nth_error_app2 by lia. rewrite Nat.sub_diag. reflexivity.
Qed.
Lemma vrel_new : forall rho n, vrel (rho ++ [[n]]) (Some (List.length rho)) (Some n).
Proof. intros. cbn. rewrite nth_error_app2 by lia. rewrite Nat.sub_diag. reflexivity. Qed.
Lemma lst_one : forall rho h n, nth_error rho h = Some [n] -> lst rho [h] [n].
Proof. intros rho h n H. exists [[n]]. split; [constructor; auto|reflexivity]. Qed.
Lemma lst_incl : forall rho hs ns, lst rho hs ns -> incl ns (List.concat rho).
Proof.
  intros rho hs ns (gs & H & ->) n HI. apply in_concat in HI as (g & G1 & G2). apply in_concat. exists g.
  split; [|exact G2]. clear G2. induction H; [contradiction|]. destruct G1 as [<-|G1]; [eapply nth_error_In; eauto|auto].
Qed.

Lemma frames_ext : forall rho r2 xs fs, Forall2 (Forall2 (srel rho)) xs fs -> Forall2 (Forall2 (srel (rho ++ r2))) xs fs.
Proof.
  intros rho r2 xs fs H. eapply Forall2_impl; [|exact H]. intros f g HF. eapply Forall2_impl; [|exact HF].
  intros. apply srel_ext; auto.
Qed.
Lemma blocks_ext : forall rho r2 xs bs, Forall2 (brel rho) xs bs -> Forall2 (brel (rho ++ r2)) xs bs.
Proof. intros rho r2 xs bs H. eapply Forall2_impl; [|exact H]. intros. apply brel_ext; auto. Qed.

(** *** what is read *)
Lemma xget_sound : forall u rho x a k v n, rel u rho x a -> xget x k = Some v -> get_slot k a = XOk n -> vrel rho v n.
Proof.
  intros u rho x a k v n R H1 H2. destruct (r_frames _ _ _ _ R) as (fs & F1 & F2). unfold xget in H1. unfold get_slot in H2.
  rewrite F1 in H2. destruct F2 as [|f g xs fs F2 F3]; [discriminate|]. cbn in H2.
  clear F1 F3. revert g F2 H2. generalize dependent f. induction k as [|k IH]; intros f H1 g F2 H2.
  - destruct F2 as [|v1 n1 f g F2 F3]; [discriminate|]. cbn in H1, H2. destruct v1 as [v1|]; [|discriminate]. injection H1 as ->.
    destruct F2 as (m & -> & F2). injection H2 as ->. exact F2.
  - destruct F2 as [|v1 n1 f g F2 F3]; [discriminate|]. cbn in H1, H2. eapply IH; eauto.
Qed.
Lemma xarg_sound : forall u rho x a k v n, rel u rho x a -> xarg x k = Some v -> eval_arg k a = XOk n -> vrel rho v n.
Proof.
  intros u rho x a [k|] v n R H1 H2; cbn in H1, H2; [eapply xget_sound; eauto|]. injection H1 as <-. injection H2 as <-. exact I.
Qed.
Lemma xargs_sound : forall u rho x a l vs ns, rel u rho x a -> xargs x l = Some vs -> eval_args l a = XOk ns ->
  Forall2 (vrel rho) vs ns.
Proof.
  intros u rho x a l vs ns R. revert vs ns. induction l as [|k l IH]; intros vs ns H1 H2; cbn in H1, H2.
  - injection H1 as <-. injection H2 as <-. constructor.
  - destruct (xarg x k) as [v|] eqn:E1; [|discriminate]. destruct (xargs x l) as [vs'|]; [|discriminate]. injection H1 as <-.
    destruct (eval_arg k a) as [n| | |] eqn:E2; cbn in H2; try discriminate.
    destruct (eval_args l a) as [ns'| | |]; cbn in H2; try discriminate. injection H2 as <-.
    constructor; [eapply xarg_sound; eauto|auto].
Qed.

Lemma upd_rel : forall rho f g k v n f' g', Forall2 (srel rho) f g -> srel rho v n ->
  upd f k v = Some f' -> upd g k n = Some g' -> Forall2 (srel rho) f' g'.
Proof.
  intros rho f g k v n f' g' H HV. revert k f' g'. induction H as [|v1 n1 f g H1 H IH]; intros k f' g' E1 E2; [destruct k; discriminate|].
  destruct k as [|k]; cbn in E1, E2.
  - injection E1 as <-. injection E2 as <-. constructor; auto.
  - destruct (upd f k v) as [f1|] eqn:U1; [|discriminate]. destruct (upd g k n) as [g1|] eqn:U2; [|discriminate].
    injection E1 as <-. injection E2 as <-. constructor; [exact H1|]. exact (IH k f1 g1 U1 U2).
Qed.
Lemma xput_sound : forall u rho x a k v n x' a', rel u rho x a -> srel rho v (Some n) ->
  xput x k v = Some x' -> put_slot k n a = XOk a' -> rel u rho x' a'.
Proof.
  intros u rho x a k v n x' a' R HV H1 H2. destruct R as [R1 R2 R3 (fs & F1 & F2) R5 R6 R7 R8 R9 R10 R11].
  unfold xput in H1. unfold put_slot in H2. rewrite F1 in H2.
  destruct (x_frames x) as [|f xs] eqn:EX; [discriminate|]. inversion F2 as [|? g ? fs' F3 F4]; subst. cbn in H2.
  destruct (upd f k v) as [f'|] eqn:U1; [|discriminate]. destruct (upd g k (Some n)) as [g'|] eqn:U2; [|discriminate].
  injection H1 as <-. injection H2 as <-. constructor; cbn; auto.
  exists (g' :: fs'). split; [reflexivity|]. constructor; [eapply upd_rel; eauto|exact F4].
Qed.

(** *** constructors *)
Lemma heap_grp : forall rho x h g, x_heap x = map (map term_of) rho -> nth_error rho h = Some g -> grp x h = map term_of g.
Proof.
  intros rho x h g HH H. unfold grp. rewrite HH. apply nth_error_nth. rewrite nth_error_map, H. reflexivity.
Qed.
Lemma heap_grps : forall rho x hs ns, x_heap x = map (map term_of) rho -> lst rho hs ns -> grps x hs = map term_of ns.
Proof.
  intros rho x hs ns HH (gs & H & ->). unfold grps. induction H as [|h g hs gs H1 H IH]; [reflexivity|].
  cbn. rewrite map_app, IH, (heap_grp _ _ _ _ HH H1). reflexivity.
Qed.

Lemma same_node : forall (l : list node) x y, NoDup (map nid l) -> In x l -> In y l -> nid x = nid y -> x = y.
Proof.
  induction l as [|z l IH]; intros x y ND HX HY E; [contradiction|]. cbn in ND. inversion ND as [|? ? N1 N2]; subst.
  destruct HX as [<-|HX]; destruct HY as [<-|HY]; auto.
  - destruct N1. rewrite E. apply in_map. exact HY.
  - destruct N1. rewrite <- E. apply in_map. exact HX.
Qed.

Lemma find_id_kid : forall (all K : list node) n, NoDup (map nid all) -> incl K all -> In n K ->
  find_id (map (fun k => (nid k, term_of k)) K) (nid n) = Some (term_of n).
Proof.
  intros all K n ND HI. induction K as [|k K IH]; intros HN; [contradiction|]. cbn.
  destruct (Nat.eqb (nid n) (nid k)) eqn:E.
  - apply Nat.eqb_eq in E. f_equal. f_equal. symmetry. eapply same_node; eauto using in_eq.
  - destruct HN as [->|HN]; [rewrite Nat.eqb_refl in E; discriminate|]. apply IH; [|exact HN]. intros z HZ. apply HI. right. exact HZ.
Qed.
Lemma find_ids_kids : forall (all K ns : list node), NoDup (map nid all) -> incl K all -> incl ns K ->
  find_ids (map (fun k => (nid k, term_of k)) K) (map nid ns) = Some (map term_of ns).
Proof.
  intros all K ns ND HI. induction ns as [|n ns IH]; intros HN; [reflexivity|]. cbn.
  rewrite (find_id_kid all K n ND HI) by (apply HN; left; reflexivity). rewrite IH; [reflexivity|].
  intros z HZ. apply HN. right. exact HZ.
Qed.

Lemma memb_in : forall h l, memb h l = true -> In h l.
Proof. intros h l H. apply existsb_exists in H as (y & H1 & H2). apply Nat.eqb_eq in H2. subst. exact H1. Qed.
Lemma lst_mem : forall rho hs ns h g, lst rho hs ns -> In h hs -> nth_error rho h = Some g -> incl g ns.
Proof.
  intros rho hs ns h g (gs & H & ->) HI E n HN. apply in_concat. exists g. split; [|exact HN].
  induction H as [|h1 g1 hs gs H1 H IH]; [contradiction|]. destruct HI as [->|HI]; [left; congruence|right; auto].
Qed.
Lemma lst_sub : forall rho hs ns h2 n2, lst rho hs ns -> lst rho h2 n2 -> incl h2 hs -> incl n2 ns.
Proof.
  intros rho hs ns h2 n2 HL (gs & H & ->). induction H as [|h g h2 gs H1 H IH]; intros HI; [intros z Z; contradiction|].
  cbn. apply incl_app; [eapply lst_mem; eauto; apply HI; left; reflexivity|]. apply IH. intros z HZ. apply HI. right. exact HZ.
Qed.

Lemma term_is_node : forall n t, term_is (term_of n) t = is_a n t.
Proof. intros [i ty r f k o] t. reflexivity. Qed.
Lemma take_while_map : forall (f : term -> bool) (g : node -> bool), (forall n, f (term_of n) = g n) -> forall l,
  take_while f (map term_of l) = map term_of (take_while g l).
Proof. intros f g E. induction l as [|n l IH]; [reflexivity|]. cbn. rewrite E. destruct (g n); [cbn; rewrite IH; reflexivity|reflexivity]. Qed.
Lemma drop_while_map : forall (f : term -> bool) (g : node -> bool), (forall n, f (term_of n) = g n) -> forall l,
  drop_while f (map term_of l) = map term_of (drop_while g l).
Proof. intros f g E. induction l as [|n l IH]; [reflexivity|]. cbn. rewrite E. destruct (g n); [exact IH|reflexivity]. Qed.
Lemma take_while_incl : forall (g : node -> bool) l, incl (take_while g l) l.
Proof. intros g. induction l as [|n l IH]; [intros z Z; exact Z|]. cbn. destruct (g n); [|intros z Z; contradiction].
  intros z [<-|Z]; [left; reflexivity|right; auto]. Qed.
Lemma drop_while_incl : forall (g : node -> bool) l, incl (drop_while g l) l.
Proof. intros g. induction l as [|n l IH]; [intros z Z; exact Z|]. cbn. destruct (g n); [|intros z Z; exact Z].
  intros z Z. right. auto. Qed.
Lemma firstn_incl : forall (l : list node) k, incl (firstn k l) l.
Proof. intros l. induction l as [|n l IH]; intros [|k] z Z; try contradiction. cbn in Z. destruct Z as [<-|Z]; [left; reflexivity|right; eapply IH; eauto]. Qed.

Lemma slice_block : forall p q s, strel (xp_st p) (b_bstart q) -> b_bend q = where_ (xp_en p) ->
  xblock slice_real p = Some s -> slice inp (b_bstart q) (b_bend q) = s.
Proof.
  intros p q s H1 H2 H. unfold xblock in H. destruct (xp_st p) as [w|]; [|discriminate]. injection H as <-. cbn in H1.
  rewrite H1, H2. reflexivity.
Qed.

Lemma xbparam_sound : forall rho x p q args ns ops b f ops1 sb ap ops2,
  x_heap x = map (map term_of) rho -> NoDup (map nid (List.concat rho)) ->
  strel (xp_st p) (b_bstart q) -> b_bend q = where_ (xp_en p) -> lst rho (xp_seq p) (b_seq q) ->
  forall K, lst rho (xp_kids p) K ->
  Forall2 (vrel rho) args ns -> match x_sb x with None => True | Some s => sb = s end ->
  xbparam slice_real trim chain_real x p args ops b = Some (f, ops1) ->
  eval_bparam inp q ns sb ops b = Some (ap, ops2) ->
  ops2 = ops1 /\ tfield_of (map (fun k => (nid k, term_of k)) K) (to_field ap) = f.
Proof.
  intros rho x p q args ns ops b f ops1 sb ap ops2 HH ND HS HE HQ K HK HA HB H1 H2.
  assert (SEQ : forall l, incl l (b_seq q) -> forallb (fun h => memb h (xp_kids p)) (xp_seq p) = true ->
    tfield_of (map (fun k => (nid k, term_of k)) K) (FList (map nid l)) = TList (map term_of l)).
  { intros l HL F. cbn. rewrite (find_ids_kids (List.concat rho) K l ND (lst_incl _ _ _ HK)); [reflexivity|].
    eapply incl_tran; [exact HL|]. eapply lst_sub; [exact HK|exact HQ|]. rewrite forallb_forall in F. intros z Z. apply memb_in. auto. }
  assert (GS : grps x (xp_seq p) = map term_of (b_seq q)) by (eapply heap_grps; eauto).
  assert (IR : incl (b_seq q) (b_seq q)) by (intros z Z; exact Z).
  destruct b; cbn [xbparam eval_bparam] in H1, H2.
  - destruct (nth_error ns k) as [n|] eqn:E2; [|discriminate]. injection H2 as <- <-.
    assert (HV : exists v, nth_error args k = Some v /\ vrel rho v n).
    { clear - HA E2. revert k E2. induction HA as [|v m args ns HV HA IH]; intros k E2; [destruct k; discriminate|].
      destruct k as [|k]; [cbn in E2; injection E2 as <-; exists v; auto|exact (IH k E2)]. }
    destruct HV as (v & E1 & HV). rewrite E1 in H1. destruct v as [h|]; destruct n as [n|]; try contradiction.
    + cbn in HV. destruct (memb h (xp_kids p)) eqn:EM; [|discriminate]. rewrite (heap_grp _ _ _ _ HH HV) in H1. cbn in H1.
      injection H1 as <- <-. split; [reflexivity|]. cbn.
      rewrite (find_id_kid (List.concat rho) K n ND (lst_incl _ _ _ HK)); [reflexivity|].
      eapply lst_mem; [exact HK|apply memb_in; exact EM|exact HV|left; reflexivity].
    + injection H1 as <- <-. split; reflexivity.
  - injection H1 as <- <-. injection H2 as <- <-. split; reflexivity.
  - injection H1 as <- <-. injection H2 as <- <-. split; reflexivity.
  - injection H1 as <- <-. injection H2 as <- <-. split; reflexivity.
  - destruct (forallb _ _) eqn:EF; [|discriminate]. injection H1 as <- <-. injection H2 as <- <-. split; [reflexivity|].
    rewrite GS. apply SEQ; auto.
  - destruct (forallb _ _) eqn:EF; [|discriminate]. injection H1 as <- <-. injection H2 as <- <-. split; [reflexivity|].
    rewrite GS, (take_while_map _ (fun n => Bool.eqb (is_a n t) b)) by (intros; rewrite term_is_node; reflexivity).
    apply SEQ; [apply take_while_incl|reflexivity].
  - destruct (forallb _ _) eqn:EF; [|discriminate]. injection H1 as <- <-. injection H2 as <- <-. split; [reflexivity|].
    rewrite GS, (drop_while_map _ (fun n => Bool.eqb (is_a n t) b)) by (intros; rewrite term_is_node; reflexivity).
    apply SEQ; [apply drop_while_incl|reflexivity].
  - destruct (forallb _ _) eqn:EF; [|discriminate]. injection H1 as <- <-. injection H2 as <- <-. split; [reflexivity|].
    rewrite GS, map_length, firstn_map. apply SEQ; [apply firstn_incl|reflexivity].
  - destruct (forallb _ _) eqn:EF; [|discriminate]. destruct (Nat.even _); [|discriminate].
    injection H1 as <- <-. injection H2 as <- <-. split; [reflexivity|]. rewrite GS. apply SEQ; auto.
  - destruct ops as [|o r]; [discriminate|]. injection H1 as <- <-. injection H2 as <- <-. split; reflexivity.
  - destruct (_ && _); [|discriminate]. injection H2 as <- <-. rewrite GS in H1. unfold chain_real in H1. rewrite map_length in H1.
    injection H1 as <- <-. split; reflexivity.
  - destruct (x_sb x) as [s|]; [|discriminate]. injection H1 as <- <-. injection H2 as <- <-. subst sb. split; reflexivity.
  - destruct (xblock slice_real p) as [s|] eqn:EB; [|discriminate]. injection H1 as <- <-. injection H2 as <- <-. split; [reflexivity|].
    rewrite (slice_block _ _ _ HS HE EB). reflexivity.
  - destruct (xblock slice_real p) as [s|] eqn:EB; [|discriminate]. injection H1 as <- <-. injection H2 as <- <-. split; [reflexivity|].
    rewrite (slice_block _ _ _ HS HE EB). reflexivity.
Qed.

Lemma xbparams_sound : forall rho x p q args ns sb,
  x_heap x = map (map term_of) rho -> NoDup (map nid (List.concat rho)) ->
  strel (xp_st p) (b_bstart q) -> b_bend q = where_ (xp_en p) -> lst rho (xp_seq p) (b_seq q) ->
  forall K, lst rho (xp_kids p) K ->
  Forall2 (vrel rho) args ns -> match x_sb x with None => True | Some s => sb = s end ->
  forall bs ops fs ops1 aps ops2,
  xbparams slice_real trim chain_real x p args ops bs = Some (fs, ops1) ->
  eval_bparams inp q ns sb ops bs = Some (aps, ops2) ->
  ops2 = ops1 /\ map (tfield_of (map (fun k => (nid k, term_of k)) K)) (map to_field aps) = fs.
Proof.
  intros rho x p q args ns sb HH ND HS HE HQ K HK HA HB. induction bs as [|b bs IH]; intros ops fs ops1 aps ops2 H1 H2; cbn in H1, H2.
  - injection H1 as <- <-. injection H2 as <- <-. split; reflexivity.
  - destruct (xbparam _ _ _ _ _ _ _ b) as [[f o1]|] eqn:E1; [|discriminate].
    destruct (eval_bparam _ _ _ _ _ b) as [[ap o2]|] eqn:E2; [|discriminate].
    destruct (xbparam_sound rho x p q args ns ops b f o1 sb ap o2 HH ND HS HE HQ K HK HA HB E1 E2) as [-> F].
    destruct (xbparams _ _ _ _ _ _ _ bs) as [[fs' o3]|] eqn:E3; [|discriminate].
    destruct (eval_bparams _ _ _ _ _ bs) as [[aps' o4]|] eqn:E4; [|discriminate].
    injection H1 as <- <-. injection H2 as <- <-. destruct (IH _ _ _ _ _ E3 E4) as [-> F2]. split; [reflexivity|].
    cbn. rewrite F, F2. reflexivity.
Qed.

(** *** states *)
Lemma old_more : forall (l : list node) f1 f2, Forall (fun n => nid n < f1) l -> f1 <= f2 -> Forall (fun n => nid n < f2) l.
Proof. intros l f1 f2 H L. eapply Forall_impl; [|exact H]. cbn. intros. lia. Qed.

Lemma nodup_more : forall (l g : list node) f, NoDup (map nid l) -> Forall (fun n => nid n < f) l ->
  NoDup (map nid g) -> Forall (fun n => f <= nid n) g -> NoDup (map nid (l ++ g)).
Proof.
  intros l g f H1 H2 H3 H4. rewrite map_app. induction l as [|n l IH]; [exact H3|]. cbn in *.
  inversion H1; subst. inversion H2; subst. constructor; [|auto]. intros HI. apply in_app_or in HI as [HI|HI]; [auto|].
  apply in_map_iff in HI as (z & Z1 & Z2). rewrite Forall_forall in H4. specialize (H4 z Z2). lia.
Qed.

(** a group of new nodes *)
Lemma more_nodes : forall rho g f f2, NoDup (map nid (List.concat rho)) -> Forall (fun n => nid n < f) (List.concat rho) ->
  NoDup (map nid g) -> Forall (fun n => f <= nid n < f2) g -> f <= f2 ->
  NoDup (map nid (List.concat (rho ++ [g]))) /\ Forall (fun n => nid n < f2) (List.concat (rho ++ [g])).
Proof.
  intros rho g f f2 H1 H2 H3 H4 L. rewrite concat_app. cbn. rewrite app_nil_r. split.
  - eapply nodup_more; eauto. eapply Forall_impl; [|exact H4]. cbn. intros. lia.
  - apply Forall_app. split; [eapply old_more; eauto|]. eapply Forall_impl; [|exact H4]. cbn. intros. lia.
Qed.

Lemma grow_grow : forall b s1 k1 s2 k2, grow (grow b s1 k1) s2 k2 = grow b (s1 ++ s2) (k1 ++ k2).
Proof. intros. unfold grow. cbn. rewrite !app_assoc. reflexivity. Qed.

(** adding to the last block *)
Lemma add_kids_blocks : forall u rho x (bl : list block) hs ks q bs,
  (exists bs ss ks, bl = bs ++ grow (u_block u) ss ks :: u_blocks u /\
     Forall2 (brel rho) (x_blocks x) bs /\ lst rho (x_bseq x) ss /\ lst rho (x_bkids x) ks) ->
  bl = q :: bs -> lst rho hs ks ->
  exists bs' ss ks', grow q [] ks :: bs = bs' ++ grow (u_block u) ss ks' :: u_blocks u /\
     Forall2 (brel rho) (x_blocks (add_kids x hs)) bs' /\ lst rho (x_bseq (add_kids x hs)) ss /\ lst rho (x_bkids (add_kids x hs)) ks'.
Proof.
  intros u rho x bl hs ks q bs (cs & ss & ks0 & H1 & H2 & H3 & H4) -> HL. unfold add_kids.
  destruct H2 as [|xb c xbs cs (K1 & K2 & K3) H2]; cbn in H1; injection H1 as -> ->.
  - exists [], ss, (ks0 ++ ks). cbn. rewrite grow_grow, app_nil_r. split; [reflexivity|]. split; [constructor|]. split; [exact H3|].
    apply lst_app; auto.
  - exists (grow c [] ks :: cs), ss, ks0. cbn. split; [reflexivity|]. split; [|auto]. constructor; [|exact H2].
    split; [exact K1|]. cbn. split; [rewrite app_nil_r; exact K2|apply lst_app; auto].
Qed.
Lemma add_seq_blocks : forall u rho x (bl : list block) hs ks q bs,
  (exists bs ss ks, bl = bs ++ grow (u_block u) ss ks :: u_blocks u /\
     Forall2 (brel rho) (x_blocks x) bs /\ lst rho (x_bseq x) ss /\ lst rho (x_bkids x) ks) ->
  bl = q :: bs -> lst rho hs ks ->
  exists bs' ss ks', grow q ks [] :: bs = bs' ++ grow (u_block u) ss ks' :: u_blocks u /\
     Forall2 (brel rho) (x_blocks (add_seq x hs)) bs' /\ lst rho (x_bseq (add_seq x hs)) ss /\ lst rho (x_bkids (add_seq x hs)) ks'.
Proof.
  intros u rho x bl hs ks q bs (cs & ss & ks0 & H1 & H2 & H3 & H4) -> HL. unfold add_seq.
  destruct H2 as [|xb c xbs cs (K1 & K2 & K3) H2]; cbn in H1; injection H1 as -> ->.
  - exists [], (ss ++ ks), ks0. cbn. rewrite grow_grow, app_nil_r. split; [reflexivity|]. split; [constructor|]. split; [|exact H4].
    apply lst_app; auto.
  - exists (grow c ks [] :: cs), ss, ks0. cbn. split; [reflexivity|]. split; [|auto]. constructor; [|exact H2].
    split; [exact K1|]. cbn. split; [apply lst_app; auto|rewrite app_nil_r; exact K3].
Qed.

Lemma add_kids_frames : forall x hs, x_frames (add_kids x hs) = x_frames x. Proof. intros. unfold add_kids. destruct (x_blocks x); reflexivity. Qed.
Lemma add_kids_ret : forall x hs, x_ret (add_kids x hs) = x_ret x. Proof. intros. unfold add_kids. destruct (x_blocks x); reflexivity. Qed.
Lemma add_kids_prev : forall x hs, x_prev (add_kids x hs) = x_prev x. Proof. intros. unfold add_kids. destruct (x_blocks x); reflexivity. Qed.
Lemma add_kids_ops : forall x hs, x_ops (add_kids x hs) = x_ops x. Proof. intros. unfold add_kids. destruct (x_blocks x); reflexivity. Qed.
Lemma add_kids_sb : forall x hs, x_sb (add_kids x hs) = x_sb x. Proof. intros. unfold add_kids. destruct (x_blocks x); reflexivity. Qed.
Lemma add_kids_res : forall x hs, x_res (add_kids x hs) = x_res x. Proof. intros. unfold add_kids. destruct (x_blocks x); reflexivity. Qed.
Lemma add_kids_eof : forall x hs, x_eof (add_kids x hs) = x_eof x. Proof. intros. unfold add_kids. destruct (x_blocks x); reflexivity. Qed.
Lemma add_kids_heap : forall x hs, x_heap (add_kids x hs) = x_heap x. Proof. intros. unfold add_kids. destruct (x_blocks x); reflexivity. Qed.
Lemma add_seq_frames : forall x hs, x_frames (add_seq x hs) = x_frames x. Proof. intros. unfold add_seq. destruct (x_blocks x); reflexivity. Qed.
Lemma add_seq_ret : forall x hs, x_ret (add_seq x hs) = x_ret x. Proof. intros. unfold add_seq. destruct (x_blocks x); reflexivity. Qed.
Lemma add_seq_prev : forall x hs, x_prev (add_seq x hs) = x_prev x. Proof. intros. unfold add_seq. destruct (x_blocks x); reflexivity. Qed.
Lemma add_seq_ops : forall x hs, x_ops (add_seq x hs) = x_ops x. Proof. intros. unfold add_seq. destruct (x_blocks x); reflexivity. Qed.
Lemma add_seq_sb : forall x hs, x_sb (add_seq x hs) = x_sb x. Proof. intros. unfold add_seq. destruct (x_blocks x); reflexivity. Qed.
Lemma add_seq_res : forall x hs, x_res (add_seq x hs) = x_res x. Proof. intros. unfold add_seq. destruct (x_blocks x); reflexivity. Qed.
Lemma add_seq_eof : forall x hs, x_eof (add_seq x hs) = x_eof x. Proof. intros. unfold add_seq. destruct (x_blocks x); reflexivity. Qed.
Lemma add_seq_heap : forall x hs, x_heap (add_seq x hs) = x_heap x. Proof. intros. unfold add_seq. destruct (x_blocks x); reflexivity. Qed.
Hint Rewrite add_kids_frames add_kids_ret add_kids_prev add_kids_ops add_kids_sb add_kids_res add_kids_eof add_kids_heap
  add_seq_frames add_seq_ret add_seq_prev add_seq_ops add_seq_sb add_seq_res add_seq_eof add_seq_heap : adds.

Lemma heap_more : forall x rho g, x_heap x = map (map term_of) rho -> x_heap x ++ [map term_of g] = map (map term_of) (rho ++ [g]).
Proof. intros x rho g ->. rewrite map_app. reflexivity. Qed.
Lemma heap_len : forall x rho, x_heap x = map (map term_of) rho -> List.length (x_heap x) = List.length rho.
Proof. intros x rho ->. rewrite map_length. reflexivity. Qed.

Definition opt_ext (P : list (list node) -> Prop) (rho r2 : list (list node)) := P rho -> P (rho ++ r2).
Lemma ret_ext : forall rho r2 (v : option (option nat)) n, match v with None => True | Some v => vrel rho v n end ->
  match v with None => True | Some v => vrel (rho ++ r2) v n end.
Proof. intros rho r2 [v|] n H; auto. apply vrel_ext. exact H. Qed.
Lemma res_ext : forall rho r2 (v : option (option nat)) (P : Prop) n, match v with None => P | Some v => vrel rho v n end ->
  match v with None => P | Some v => vrel (rho ++ r2) v n end.
Proof. intros rho r2 [v|] P n H; auto. apply vrel_ext. exact H. Qed.

Lemma xbuild_sound : forall u rho x e c args ns a h x' n a', rel u rho x a -> e_inp e = inp ->
  Forall2 (vrel rho) args ns ->
  xbuild slice_real trim chain_real x c args = Some (h, x') -> do_build e c ns a = XOk (n, a') ->
  rel u (rho ++ [[n]]) x' a' /\ vrel (rho ++ [[n]]) (Some h) (Some n).
Proof.
  intros u rho x e c args ns a h x' n a' R HE HA H1 H2. unfold xbuild in H1. unfold do_build in H2.
  destruct R as [R1 R2 R3 (fs & F1 & F2) R5 R6 R7 R8 R9 R10 R11].
  destruct (x_prev x) as [p0|] eqn:EP; [|discriminate]. destruct R6 as (q & EQ & P1 & P2 & P3 & P4). rewrite EQ in H2.
  destruct (build_call c) as [ty bps]. rewrite HE in H2.
  set (p := if terminal ty then mkxp (xp_st p0) (xp_en p0) (xp_seq p0) [] else p0) in *.
  destruct (xbparams _ _ _ x p args (x_ops x) bps) as [[fs1 ops]|] eqn:E1; [|discriminate]. injection H1 as <- <-.
  destruct (eval_bparams _ _ _ _ _ bps) as [[ps ops']|] eqn:E2; [|discriminate].
  destruct (terminal ty && nonempty (b_kids q)); [discriminate|].
  set (K := if terminal ty then [] else b_kids q) in *.
  destruct (construct _ _ _ _ _) as [n'|] eqn:EC; [|discriminate].
  destruct (a_blocks a) as [|b bs] eqn:EB; [discriminate|]. injection H2 as <- <-.
  assert (PK : lst rho (xp_kids p) K) by (subst p K; destruct (terminal ty); [apply lst_nil|exact P4]).
  assert (PS : xp_st p = xp_st p0 /\ xp_en p = xp_en p0 /\ xp_seq p = xp_seq p0) by (subst p; destruct (terminal ty); auto).
  destruct PS as (PS1 & PS2 & PS3). rewrite <- PS1 in P1. rewrite <- PS2 in P2. rewrite <- PS3 in P3.
  rewrite R7 in E2.
  destruct (xbparams_sound rho x p q args ns (a_sb a) R1 R2 P1 P2 P3 K PK HA R9 bps _ _ _ _ _ E1 E2) as [-> FS].
  assert (NT : term_of n' = T ty fs1 /\ nid n' = a_fresh a).
  { unfold construct in EC. destruct (ctor_kinds ty); [|discriminate]. destruct (_ && _); [|discriminate]. injection EC as <-.
    cbn. rewrite <- FS. split; reflexivity. }
  destruct NT as [NT NI].
  destruct (more_nodes rho [n'] (a_fresh a) (S (a_fresh a)) R2 R3) as [M1 M2].
  { repeat constructor; auto. } { constructor; [lia|constructor]. } { lia. }
  rewrite (heap_len _ _ R1). split; [|apply vrel_new].
  constructor; autorewrite with adds; cbn -[add_kids]; autorewrite with adds; auto.
  - cbn. rewrite <- NT. change [term_of n'] with (map term_of [n']). apply heap_more. exact R1.
  - exists fs. split; [exact F1|]. cbn. apply frames_ext. exact F2.
  - assert (K1 : exists bs0 ss ks, b :: bs = bs0 ++ grow (u_block u) ss ks :: u_blocks u /\
      Forall2 (brel (rho ++ [[n']])) (x_blocks x) bs0 /\ lst (rho ++ [[n']]) (x_bseq x) ss /\ lst (rho ++ [[n']]) (x_bkids x) ks).
    { destruct R5 as (b1 & s1 & k1 & B1 & B2 & B3 & B4). exists b1, s1, k1. eauto 8 using blocks_ext, lst_ext. }
    pose proof (add_kids_blocks u (rho ++ [[n']])
      (upd_prev (upd_ops (upd_heap x (x_heap x ++ [[T ty fs1]])) ops) None) (b :: bs) [List.length rho] [n'] b bs K1 eq_refl (lst_new rho [n'])) as K2.
    unfold grow at 1 in K2. cbn in K2. rewrite !app_nil_r in K2. exact K2.
  - apply ret_ext. exact R8.
  - apply res_ext. exact R10.
Qed.

Lemma xrhs_sound : forall u rho x e r a v x' n a', rel u rho x a -> e_inp e = inp ->
  xrhs slice_real trim chain_real x r = Some (v, x') -> eval_rhs e r a = XOk (n, a') ->
  exists r2, rel u (rho ++ r2) x' a' /\ vrel (rho ++ r2) v n.
Proof.
  intros u rho x e r a v x' n a' R HE H1 H2. destruct r as [k|c l]; cbn in H1, H2.
  - destruct (xarg x k) as [v1|] eqn:E1; [|discriminate]. injection H1 as <- <-.
    destruct (eval_arg k a) as [n1| | |] eqn:E2; try discriminate. cbn in H2. injection H2 as <- <-.
    exists []. rewrite app_nil_r. split; [exact R|]. eapply xarg_sound; eauto.
  - destruct (xargs x l) as [vs|] eqn:E1; [|discriminate]. destruct (xbuild _ _ _ x c vs) as [[h x1]|] eqn:E3; [|discriminate].
    injection H1 as <- <-. destruct (eval_args l a) as [ns| | |] eqn:E2; try discriminate. cbn in H2.
    destruct (do_build e c ns a) as [[m a1]| | |] eqn:E4; try discriminate. cbn in H2. injection H2 as <- <-.
    exists [[m]]. eapply xbuild_sound; [exact R|exact HE|eapply xargs_sound; eauto|exact E3|exact E4].
Qed.

Lemma rel_upd_ret : forall u rho x a v n, rel u rho x a -> vrel rho v n -> rel u rho (upd_ret x (Some v)) (set_ret a n).
Proof. intros u rho x a v n [R1 R2 R3 R4 R5 R6 R7 R8 R9 R10 R11] H. constructor; cbn; auto. Qed.

Lemma fill_same : forall e a a', do_finished e a = XOk a' -> exists c es, a' = set_errs (set_consumed a c) es.
Proof.
  intros e a a' H. unfold do_finished in H. destruct (fill_contexts e _); try discriminate. cbn in H. injection H as <-. eauto.
Qed.

Lemma xstmt_sound : forall s u rho x e a x' a', rel u rho x a -> e_inp e = inp ->
  xstmt slice_real trim chain_real s x = Some x' -> exec_stmt e s a = XOk a' -> exists r2, rel u (rho ++ r2) x' a'.
Proof.
  induction s; intros u rho x e a0 x' a' R HE H1 H2; cbn [xstmt exec_stmt] in H1, H2.
  - injection H1 as <-. apply fill_same in H2 as (c & es & ->). exists []. rewrite app_nil_r.
    destruct R as [R1 R2 R3 R4 R5 R6 R7 R8 R9 R10 R11]. constructor; cbn; auto.
  - destruct (xarg x a) as [v|] eqn:E1; [|discriminate]. injection H1 as <-. destruct (eval_arg a a0) as [n| | |] eqn:E2; try discriminate.
    cbn in H2. injection H2 as <-. pose proof (xarg_sound _ _ _ _ _ _ _ R E1 E2) as HV. exists []. rewrite app_nil_r.
    destruct R as [R1 R2 R3 R4 R5 R6 R7 R8 R9 R10 R11]. constructor; cbn; auto.
  - destruct (xarg x a) as [[h|]|] eqn:E1; try discriminate. injection H1 as <-. destruct (eval_arg a a0) as [n| | |] eqn:E2; try discriminate.
    cbn in H2. pose proof (xarg_sound _ _ _ _ _ _ _ R E1 E2) as HV. exists []. rewrite app_nil_r. destruct n as [n|]; [|contradiction].
    cbn in H2. destruct (a_blocks a0) as [|b bs] eqn:EB; [discriminate|]. injection H2 as <-.
    destruct R as [R1 R2 R3 R4 R5 R6 R7 R8 R9 R10 R11]. constructor; autorewrite with adds; cbn -[add_seq]; auto.
    rewrite EB in R5. pose proof (add_seq_blocks u rho x (b :: bs) [h] [n] b bs R5 eq_refl (lst_one _ _ _ HV)) as K.
    unfold grow at 1 in K. cbn in K. rewrite app_nil_r in K. exact K.
  - injection H1 as <-. injection H2 as <-. exists []. rewrite app_nil_r.
    destruct R as [R1 R2 R3 R4 R5 R6 R7 R8 R9 R10 R11]. constructor; cbn; auto.
  - injection H1 as <-. injection H2 as <-. exists []. rewrite app_nil_r.
    destruct R as [R1 R2 R3 R4 R5 R6 R7 R8 R9 R10 R11]. constructor; cbn; auto. destruct (x_sb x) as [b|]; [rewrite R9; reflexivity|exact I].
  - injection H1 as <-. destruct (a_prev a0) as [q|] eqn:EP; [|discriminate]. injection H2 as <-. exists []. rewrite app_nil_r.
    destruct R as [R1 R2 R3 R4 R5 R6 R7 R8 R9 R10 R11]. constructor; cbn; auto.
    destruct (x_sb x) as [b|]; [|exact I]. destruct (x_prev x) as [p|]; [|exact I]. rewrite EP in R6. destruct R6 as (q' & Q & P1 & P2 & _).
      injection Q as <-. destruct (xblock slice_real p) as [t|] eqn:ES; [|exact I].
      rewrite HE, (slice_block p q t P1 P2 ES), R9. reflexivity.
  - injection H1 as <-. injection H2 as <-. exists []. rewrite app_nil_r.
    destruct R as [R1 R2 R3 R4 R5 R6 R7 R8 R9 R10 R11]. constructor; cbn; auto.
  - injection H1 as <-. injection H2 as <-. exists []. rewrite app_nil_r.
    destruct R as [R1 R2 R3 R4 R5 R6 R7 R8 R9 R10 R11]. constructor; cbn; auto. rewrite R7. reflexivity.
  - destruct (xrhs _ _ _ x r) as [[v x1]|] eqn:E1; [|discriminate]. injection H1 as <-.
    destruct (eval_rhs e r a0) as [[n a1]| | |] eqn:E2; try discriminate. cbn in H2. injection H2 as <-.
    destruct (xrhs_sound u rho x e r a0 v x1 n a1 R HE E1 E2) as (r2 & K & _). exists r2. exact K.
  - destruct l as [|k].
    + destruct (xrhs _ _ _ x r) as [[v x1]|] eqn:E1; [|discriminate]. injection H1 as <-.
      destruct (eval_rhs e r a0) as [[n a1]| | |] eqn:E2; try discriminate. cbn in H2. injection H2 as <-.
      destruct (xrhs_sound u rho x e r a0 v x1 n a1 R HE E1 E2) as (r2 & K & KV). exists r2. apply rel_upd_ret; auto.
    + destruct (xrhs _ _ _ x r) as [[v x1]|] eqn:E1; [|discriminate].
      destruct (eval_rhs e r a0) as [[n a1]| | |] eqn:E2; try discriminate. cbn in H2.
      destruct (xrhs_sound u rho x e r a0 v x1 n a1 R HE E1 E2) as (r2 & K & KV). exists r2.
      eapply xput_sound; eauto. cbn. eauto.
  - destruct (xarg x a) as [v|] eqn:E1; [|discriminate]. destruct (eval_arg a a0) as [n| | |] eqn:E2; try discriminate. cbn in H2.
    pose proof (xarg_sound _ _ _ _ _ _ _ R E1 E2) as HV. destruct v as [h|]; destruct n as [n|]; try contradiction.
    + cbn in HV. rewrite (heap_grp _ _ _ _ (r_heap _ _ _ _ R) HV) in H1. cbn [map] in H1. rewrite term_is_node in H1.
      destruct (is_a n T_IDENTIFIER); [|eapply IHs; eauto]. injection H1 as <-. injection H2 as <-.
      exists []. rewrite app_nil_r. exact R.
    + eapply IHs; eauto.
Qed.

Lemma xstmts_sound : forall l u rho x e a x' a', rel u rho x a -> e_inp e = inp ->
  xstmts slice_real trim chain_real l x = Some x' -> exec_stmts e l a = XOk a' -> exists r2, rel u (rho ++ r2) x' a'.
Proof.
  induction l as [|s l IH]; intros u rho x e a x' a' R HE H1 H2; cbn [xstmts exec_stmts] in H1, H2.
  - injection H1 as <-. injection H2 as <-. exists []. rewrite app_nil_r. exact R.
  - destruct (xstmt _ _ _ s x) as [x1|] eqn:E1; [|discriminate]. destruct (exec_stmt e s a) as [a1| | |] eqn:E2; try discriminate.
    cbn in H2. destruct (xstmt_sound s u rho x e a x1 a1 R HE E1 E2) as (r2 & R2).
    destruct (IH u (rho ++ r2) x1 e a1 x' a' R2 HE H1 H2) as (r3 & R3). exists (r2 ++ r3). rewrite app_assoc. exact R3.
Qed.

Lemma xclose_sound : forall u rho x e a w xb x' b ps a', rel u rho x a ->
  xclose x w = Some (xb, x') -> close_block e (where_ w) a = XOk (b, ps, a') ->
  rel u rho x' a' /\ brel rho xb b /\ a_prev a' = Some b /\ b_bend b = where_ w.
Proof.
  intros u rho x e a w xb x' b ps a' [R1 R2 R3 R4 (bs & ss & ks & B1 & B2 & B3 & B4) R6 R7 R8 R9 R10 R11] H1 H2.
  unfold xclose in H1. unfold close_block in H2. destruct (x_position e _) as [q| | |]; try discriminate. cbn in H2.
  destruct (x_blocks x) as [|xb0 xbs] eqn:EX; [discriminate|]. injection H1 as <- <-.
  inversion B2 as [|? b0 ? bs' (K1 & K2 & K3) K4]; subst. rewrite B1 in H2. cbn [app] in H2.
  match type of H2 with context [if ?c then _ else _] => destruct c; [|discriminate] end. injection H2 as <- <- <-.
  split; [|split; [split; auto|split; reflexivity]]. constructor; cbn; auto.
  - exists bs', ss, ks. auto.
  - eexists. split; [reflexivity|]. cbn. auto.
Qed.

Lemma xact_sound : forall t w u rho x e a x' a', rel u rho x a -> e_inp e = inp ->
  xact slice_real trim chain_real t w x = Some x' -> exec_action e t (where_ w) a = XOk a' -> exists r2, rel u (rho ++ r2) x' a'.
Proof.
  intros t w u rho x e a x' a' R HE H1 H2. destruct t; cbn [xact exec_action] in H1, H2.
  - injection H1 as <-. injection H2 as <-. exists []. rewrite app_nil_r.
    destruct R as [R1 R2 R3 (fs & F1 & F2) R5 R6 R7 R8 R9 R10 R11]. constructor; cbn; auto.
    exists (repeat None n :: fs). rewrite F1. split; [reflexivity|]. constructor; [|exact F2]. induction n; cbn; constructor; auto. exact I.
  - destruct (x_frames x) as [|f xs] eqn:EX; [discriminate|]. injection H1 as <-. injection H2 as <-. exists []. rewrite app_nil_r.
    destruct R as [R1 R2 R3 (fs & F1 & F2) R5 R6 R7 R8 R9 R10 R11]. constructor; cbn; auto.
    rewrite EX in F2. inversion F2 as [|? g ? fs' F3 F4]; subst. exists fs'. rewrite F1. auto.
  - exists []. rewrite app_nil_r. eapply xput_sound; eauto. pose proof (r_ret _ _ _ _ R) as RR.
    destruct (x_ret x) as [v|]; cbn; [|exact I]. eauto.
  - injection H1 as <-. unfold do_block_start in H2. destruct (x_position e _) as [q| | |]; try discriminate. cbn in H2. injection H2 as <-.
    exists []. rewrite app_nil_r. destruct R as [R1 R2 R3 R4 (bs & ss & ks & B1 & B2 & B3 & B4) R6 R7 R8 R9 R10 R11].
    assert (LB : forall o a1, a_frames (block_free o a1) = a_frames a1 /\ a_ret (block_free o a1) = a_ret a1 /\ a_blocks (block_free o a1) = a_blocks a1 /\
      a_ops (block_free o a1) = a_ops a1 /\ a_sb (block_free o a1) = a_sb a1 /\ a_result (block_free o a1) = a_result a1 /\
      a_eof (block_free o a1) = a_eof a1 /\ a_fresh (block_free o a1) = a_fresh a1) by (intros [o|] a1; repeat split).
    destruct (LB (a_prev a) (set_blocks a (new_block (where_ w) q :: a_blocks a))) as (L1 & L2 & L3 & L4 & L5 & L6 & L7 & L8).
    constructor; cbn; rewrite ?L1, ?L2, ?L3, ?L4, ?L5, ?L6, ?L7, ?L8; cbn; auto.
    exists (new_block (where_ w) q :: bs), ss, ks. rewrite B1. split; [reflexivity|]. split; [|auto]. constructor; [|exact B2].
    split; [reflexivity|]. split; apply lst_nil.
  - destruct (xclose x w) as [[xb x1]|] eqn:E1; [|discriminate]. injection H1 as <-. unfold do_block_end in H2.
    destruct (close_block e (where_ w) a) as [[[b ps] a1]| | |] eqn:E2; try discriminate. cbn in H2. injection H2 as <-.
    exists []. rewrite app_nil_r. eapply xclose_sound; eauto.
  - destruct (xclose x w) as [[xb x1]|] eqn:E1; [|discriminate]. injection H1 as <-. unfold do_block_replace in H2.
    destruct (close_block e (where_ w) a) as [[[b ps] a1]| | |] eqn:E2; try discriminate. cbn in H2. injection H2 as <-.
    exists []. rewrite app_nil_r. destruct (xclose_sound _ _ _ _ _ _ _ _ _ _ _ R E1 E2) as (R' & KB & KP & KE).
    destruct R' as [R1 R2 R3 R4 (bs & ss & ks & B1 & B2 & B3 & B4) R6 R7 R8 R9 R10 R11]. constructor; cbn; auto.
    exists (new_block (where_ w) (b_rstart b) :: bs), ss, ks. rewrite B1. split; [reflexivity|]. split; [|auto]. constructor; [|exact B2].
    split; [reflexivity|]. split; apply lst_nil.
  - destruct (xclose x w) as [[xb x1]|] eqn:E1; [|discriminate]. injection H1 as <-. unfold do_block_merge in H2.
    destruct (close_block e (where_ w) a) as [[[b ps] a1]| | |] eqn:E2; try discriminate. cbn in H2.
    exists []. rewrite app_nil_r. destruct (xclose_sound _ _ _ _ _ _ _ _ _ _ _ R E1 E2) as (R' & (KB1 & KB2 & KB3) & KP & KE).
    destruct (b_kids b) as [|k0 ks0] eqn:EK.
    + injection H2 as <-. destruct R' as [R1 R2 R3 R4 R5 R6 R7 R8 R9 R10 R11].
      constructor; cbn -[add_kids]; autorewrite with adds; auto.
      * destruct R5 as (bs & ss & ks & B1 & B2 & B3 & B4). destruct (a_blocks a1) as [|q qs] eqn:EB; [destruct bs; discriminate|].
        pose proof (add_kids_blocks u rho x1 (q :: qs) (xb_kids xb) [] q qs
          (ex_intro _ bs (ex_intro _ ss (ex_intro _ ks (conj B1 (conj B2 (conj B3 B4)))))) eq_refl KB3) as K.
        unfold grow at 1 in K. rewrite !app_nil_r in K. destruct q. exact K.
      * exists b. rewrite KP. split; [reflexivity|]. split; [exact KB1|]. split; [exact KE|]. split; [exact KB2|]. rewrite EK. apply lst_nil.
    + destruct (a_blocks a1) as [|q qs] eqn:EB; [discriminate|]. injection H2 as <-.
      destruct R' as [R1 R2 R3 R4 R5 R6 R7 R8 R9 R10 R11].
      constructor; cbn -[add_kids]; autorewrite with adds; auto.
      * rewrite EB in R5. pose proof (add_kids_blocks u rho x1 (q :: qs) (xb_kids xb) (k0 :: ks0) q qs R5 eq_refl KB3) as K.
        unfold grow at 1 in K. rewrite app_nil_r in K. exact K.
      * eexists. split; [reflexivity|]. cbn. split; [exact KB1|]. split; [exact KE|]. split; [exact KB2|]. apply lst_nil.
  - eapply xstmts_sound; eauto.
Qed.

Lemma rel_blocks_cons : forall u rho x a, rel u rho x a -> exists b bs, a_blocks a = b :: bs.
Proof.
  intros u rho x a R. destruct (r_blocks _ _ _ _ R) as (bs & ss & ks & H & _). rewrite H. destruct bs as [|b bs]; cbn; eauto.
Qed.

Lemma blank_srel : forall rho ws fr gr gr', Forall2 (srel rho) fr gr -> List.length gr' = List.length gr ->
  (forall i, ~ In i ws -> nth_error gr' i = nth_error gr i) -> Forall2 (srel rho) (blank ws 0 fr) gr'.
Proof.
  intros rho ws fr gr gr' H HL HN.
  assert (HN' : forall i, ~ In (0 + i) ws -> nth_error gr' i = nth_error gr i) by exact HN. clear HN. revert HN'. generalize 0. intros k HN.
  revert gr' k HL HN. induction H as [|v n fr gr H1 H2 IH]; intros [|n' gr'] k HL HN; try discriminate; cbn [blank]; constructor.
  - destruct (existsb (Nat.eqb k) ws) eqn:E; [exact I|].
    assert (K : ~ In (k + 0) ws).
    { rewrite Nat.add_0_r. intros HI. assert (existsb (Nat.eqb k) ws = true) by (apply existsb_exists; exists k; split; [exact HI|apply Nat.eqb_refl]). congruence. }
    specialize (HN 0 K). cbn in HN. injection HN as ->. exact H1.
  - apply IH; [cbn in HL; lia|]. intros i HI. specialize (HN (S i)). cbn in HN. apply HN. rewrite <- plus_n_Sm. exact HI.
Qed.
Lemma xhole_sound : forall i l u rho x e a x' a', performs (eff i) l -> rel u rho x a -> e_inp e = inp ->
  xhole eff i x = Some x' -> exec e l a = XOk a' -> exists r2, rel u (rho ++ r2) x' a'.
Proof.
  intros i l u rho x e a x' a' HP R HE H1 H2. destruct (rel_blocks_cons _ _ _ _ R) as (b & bs & EB).
  specialize (HP e a a' b bs HE H2 EB). unfold xhole in H1. destruct (eff i) as [t|t|k f|k os ts|f k ts|n ws ts|].
  - injection H1 as <-. destruct HP as ((K1 & K2 & K3) & K4 & K5 & K6 & K7). exists []. rewrite app_nil_r.
    destruct R as [R1 R2 R3 R4 R5 R6 R7 R8 R9 R10 R11]. constructor; cbn; rewrite ?K1, ?K2, ?K4, ?K5, ?K6, ?K7; auto.
    + eapply old_more; eauto.
    + destruct (x_sb x) as [s|]; [rewrite R9; reflexivity|exact I].
  - injection H1 as <-. destruct HP as ((K1 & K2 & K3) & K4 & K5 & n & N1 & [N2 N3] & N4 & N5). exists [[n]].
    destruct R as [R1 R2 R3 (fs & F1 & F2) R5 R6 R7 R8 R9 R10 R11].
    destruct (more_nodes rho [n] (a_fresh a) (a_fresh a') R2 R3) as [M1 M2].
    { repeat constructor; auto. } { constructor; [lia|constructor]. } { lia. }
    constructor; cbn -[add_kids]; autorewrite with adds; cbn -[add_kids]; rewrite ?K1, ?K2, ?K4, ?K5; auto.
    + rewrite <- N1. change [term_of n] with (map term_of [n]). apply heap_more. exact R1.
    + exists fs. split; [exact F1|]. apply frames_ext. exact F2.
    + rewrite (heap_len _ _ R1), N5.
      assert (X1 : exists bs0 ss ks, b :: bs = bs0 ++ grow (u_block u) ss ks :: u_blocks u /\
        Forall2 (brel (rho ++ [[n]])) (x_blocks x) bs0 /\ lst (rho ++ [[n]]) (x_bseq x) ss /\ lst (rho ++ [[n]]) (x_bkids x) ks).
      { destruct R5 as (b1 & s1 & k1 & B1 & B2 & B3 & B4). exists b1, s1, k1. rewrite <- EB. eauto 8 using blocks_ext, lst_ext. }
      exact (add_kids_blocks u (rho ++ [[n]]) (upd_heap (forget x) (x_heap x ++ [[t]])) (b :: bs) [List.length rho] [n] b bs X1 eq_refl (lst_new rho [n])).
    + rewrite N4, (heap_len _ _ R1). apply vrel_new.
    + apply res_ext. exact R10.
  - destruct (x_frames (forget x)) as [|[|[[h0|]|] sl] xs] eqn:EX; try discriminate.
    destruct (x_blocks (forget x)) as [|[st [|? ?] [|h1 [|? ?]]] xbs] eqn:EBX; try discriminate.
    destruct (grp (forget x) h0) as [|t0 [|? ?]] eqn:EG; try discriminate. destruct (Nat.eqb h0 h1 && Nat.eqb (List.length sl) k) eqn:EH; [|discriminate].
    apply andb_prop in EH as [EH EL]. apply Nat.eqb_eq in EH, EL. subst h1. injection H1 as <-. cbn in EX, EBX.
    destruct R as [R1 R2 R3 (fs & F1 & F2) (bs0 & ss & ks & B1 & B2 & B3 & B4) R6 R7 R8 R9 R10 R11].
    rewrite EX in F2. inversion F2 as [|? g ? fs' F3 F4]; subst. inversion F3 as [|? n0 ? sl0 F5 F6]; subst.
    destruct F5 as (m & -> & F5). destruct m as [m|]; [|contradiction]. cbn in F5.
    rewrite EBX in B2. inversion B2 as [|? b1 ? bs1 (B5 & B6 & B7) B8]; subst. rewrite EB in B1. cbn in B1. injection B1 as -> ->.
    assert (HS : b_seq b1 = []). { destruct B6 as (gs & G1 & ->). inversion G1. reflexivity. }
    assert (HK : b_kids b1 = [m]). { destruct B7 as (gs & G1 & ->). inversion G1 as [|? g1 ? gs1 G2 G3]; subst. inversion G3; subst. cbn.
      rewrite F5 in G2. injection G2 as <-. reflexivity. }
    assert (HM : nid m < a_fresh a). { rewrite Forall_forall in R3. apply R3. apply in_concat. exists [m]. split; [eapply nth_error_In; eauto|left; reflexivity]. }
    assert (L0 : List.length sl0 = List.length sl) by (symmetry; clear - F6; induction F6; cbn; congruence).
    assert (HB : bs1 ++ grow (u_block u) ss ks :: u_blocks u <> []) by (destruct bs1; discriminate).
    specialize (HP m sl0 (fs' ++ u_frames u) F1 L0 HS HK HM HB). destruct HP as ((K1 & K2 & K3) & K5 & n & sl' & b' & N1 & [N2 N3] & N4 & N5 & N6 & N7 & N8).
    assert (ET : t0 = term_of m). { pose proof (heap_grp rho (forget x) h0 [m] R1 F5) as Q. rewrite EG in Q. cbn in Q. congruence. } subst t0.
    exists [[n]]. destruct (more_nodes rho [n] (a_fresh a) (a_fresh a') R2 R3) as [M1 M2].
    { repeat constructor; auto. } { constructor; [lia|constructor]. } { lia. }
    constructor; cbn; rewrite ?K1, ?K2, ?K5; auto.
    + rewrite <- N1. change [term_of n] with (map term_of [n]). apply heap_more. exact R1.
    + exists ((Some (Some n) :: sl') :: fs'). split; [exact N4|]. constructor; [|apply frames_ext; exact F4]. constructor.
      * exists (Some n). split; [reflexivity|]. rewrite (heap_len _ _ R1). apply vrel_new.
      * assert (LS : List.length sl' = List.length sl) by (rewrite N5; symmetry; clear - F6; induction F6; cbn; congruence).
        clear - LS. revert sl' LS. induction sl as [|v sl IH]; intros [|v' sl'] LS; try discriminate; cbn; constructor; [exact I|]. apply IH. cbn in LS. lia.
    + exists (b' :: bs1), ss, ks. rewrite N6. split; [reflexivity|]. split; [|split; apply lst_ext; auto]. constructor; [|apply blocks_ext; exact B8].
      split; [exact I|]. cbn. rewrite N7, N8. split; [apply lst_nil|]. rewrite (heap_len _ _ R1). apply lst_new.
    + apply res_ext. exact R10.
  - destruct (x_frames (forget x)) as [|[|[[h0|]|] sl] xs] eqn:EX; try discriminate. destruct (Nat.eqb (List.length sl) k) eqn:EL; [|discriminate]. apply Nat.eqb_eq in EL. injection H1 as <-. cbn in EX.
    destruct R as [R1 R2 R3 (fs & F1 & F2) R5 R6 R7 R8 R9 R10 R11].
    rewrite EX in F2. inversion F2 as [|? g ? fs' F3 F4]; subst. inversion F3 as [|? n0 ? sl0 F5 F6]; subst.
    destruct F5 as (m & -> & F5). destruct m as [m|]; [|contradiction]. cbn in F5.
    assert (HM : nid m < a_fresh a). { rewrite Forall_forall in R3. apply R3. apply in_concat. exists [m]. split; [eapply nth_error_In; eauto|left; reflexivity]. }
    assert (L0 : List.length sl0 = List.length sl) by (symmetry; clear - F6; induction F6; cbn; congruence).
    specialize (HP m sl0 (fs' ++ u_frames u) F1 L0 HM). destruct HP as ((K1 & K2 & K3) & K5 & ns & sl' & N1 & N2 & N3 & N4 & N5 & N6).
    exists [ns]. destruct (more_nodes rho ns (a_fresh a) (a_fresh a') R2 R3 N3 N2 K3) as [M1 M2].
    constructor; cbn -[add_kids add_seq]; autorewrite with adds; cbn -[add_kids add_seq]; rewrite ?K1, ?K2, ?K5; auto.
    + rewrite <- N1. apply heap_more. exact R1.
    + exists ((Some (Some m) :: sl') :: fs'). split; [exact N4|]. constructor; [|apply frames_ext; exact F4]. constructor; [apply srel_ext; exists (Some m); split; [reflexivity|exact F5]|].
      assert (LS : List.length sl' = List.length sl) by (rewrite N5; symmetry; clear - F6; induction F6; cbn; congruence).
      clear - LS. revert sl' LS. induction sl as [|w sl IH]; intros [|v' sl'] LS; try discriminate; cbn; constructor; [exact I|]. apply IH. cbn in LS. lia.
    + rewrite (heap_len _ _ R1), N6.
      set (y := upd_heap (upd_frames (forget x) ((Some (Some h0) :: map (fun _ => None) sl) :: xs)) (x_heap x ++ [ts])).
      assert (X1 : exists bs0 ss ks, b :: bs = bs0 ++ grow (u_block u) ss ks :: u_blocks u /\
        Forall2 (brel (rho ++ [ns])) (x_blocks y) bs0 /\ lst (rho ++ [ns]) (x_bseq y) ss /\ lst (rho ++ [ns]) (x_bkids y) ks).
      { destruct R5 as (b1 & s1 & k1 & B1 & B2 & B3 & B4). exists b1, s1, k1. rewrite <- EB. eauto 8 using blocks_ext, lst_ext. }
      pose proof (add_seq_blocks u (rho ++ [ns]) y (b :: bs) [List.length rho] ns b bs X1 eq_refl (lst_new rho ns)) as X2.
      pose proof (add_kids_blocks u (rho ++ [ns]) (add_seq y [List.length rho]) _ [List.length rho] ns (grow b ns []) bs X2 eq_refl (lst_new rho ns)) as X3.
      rewrite grow_grow, app_nil_r in X3. exact X3.
    + rewrite R7. reflexivity.
    + apply res_ext. exact R10.
  - destruct (x_frames (forget x)) as [|[|v0 sl] xs] eqn:EX; try discriminate. destruct (Nat.eqb (List.length sl) k) eqn:EL; [|discriminate]. apply Nat.eqb_eq in EL. cbn in EX.
    set (v1 := match f with SLost => None | _ => v0 end) in *.
    set (y := upd_heap (upd_frames (forget x) ((v1 :: map (fun _ => None) sl) :: xs)) (x_heap x ++ [ts])).
    destruct R as [R1 R2 R3 (fs & F1 & F2) R5 R6 R7 R8 R9 R10 R11].
    rewrite EX in F2. inversion F2 as [|? g ? fs' F3 F4]; subst. inversion F3 as [|? n0 ? sl0 F5 F6]; subst. cbn in F1.
    assert (HX : x' = add_kids (add_seq y [List.length (x_heap x)]) [List.length (x_heap x)]) by (destruct f, v0 as [[?|]|]; try discriminate H1; injection H1 as <-; reflexivity).
    assert (HO : slot_ok f n0 a).
    { destruct f; cbn; auto.
      - destruct v0 as [[h0|]|]; try discriminate. destruct F5 as (m & -> & F5). destruct m as [m|]; [|contradiction]. exists m. split; [reflexivity|].
        rewrite Forall_forall in R3. apply R3. apply in_concat. exists [m]. split; [eapply nth_error_In; eauto|left; reflexivity].
      - destruct v0 as [[h0|]|]; try discriminate. destruct F5 as (m & -> & F5). destruct m as [m|]; [contradiction|]. reflexivity. }
    assert (L0 : List.length sl0 = List.length sl) by (symmetry; clear - F6; induction F6; cbn; congruence).
    specialize (HP n0 sl0 (fs' ++ u_frames u) F1 L0 HO). destruct HP as ((K1 & K2 & K3) & K5 & ns & v' & sl' & N1 & N2 & N3 & N4 & N4' & N5 & N6).
    exists [ns]. destruct (more_nodes rho ns (a_fresh a) (a_fresh a') R2 R3 N3 N2 K3) as [M1 M2]. rewrite HX.
    constructor; cbn -[add_kids add_seq]; autorewrite with adds; cbn -[add_kids add_seq]; rewrite ?K1, ?K2, ?K5; auto.
    + rewrite <- N1. apply heap_more. exact R1.
    + exists ((v' :: sl') :: fs'). split; [exact N4|]. constructor; [|apply frames_ext; exact F4]. constructor.
      * destruct f; cbn [v1]; [| |exact I]; rewrite (N4' ltac:(discriminate)); apply srel_ext; exact F5.
      * assert (LS : List.length sl' = List.length sl) by (rewrite N5; exact L0).
        clear - LS. revert sl' LS. induction sl as [|w sl IH]; intros [|v' sl'] LS; try discriminate; cbn; constructor; [exact I|]. apply IH. cbn in LS. lia.
    + rewrite (heap_len _ _ R1), N6.
      assert (X1 : exists bs0 ss ks, b :: bs = bs0 ++ grow (u_block u) ss ks :: u_blocks u /\
        Forall2 (brel (rho ++ [ns])) (x_blocks y) bs0 /\ lst (rho ++ [ns]) (x_bseq y) ss /\ lst (rho ++ [ns]) (x_bkids y) ks).
      { destruct R5 as (b1 & s1 & k1 & B1 & B2 & B3 & B4). exists b1, s1, k1. rewrite <- EB. eauto 8 using blocks_ext, lst_ext. }
      pose proof (add_seq_blocks u (rho ++ [ns]) y (b :: bs) [List.length rho] ns b bs X1 eq_refl (lst_new rho ns)) as X2.
      pose proof (add_kids_blocks u (rho ++ [ns]) (add_seq y [List.length rho]) _ [List.length rho] ns (grow b ns []) bs X2 eq_refl (lst_new rho ns)) as X3.
      rewrite grow_grow, app_nil_r in X3. exact X3.
    + apply res_ext. exact R10.
  - destruct (x_frames (forget x)) as [|fr xs] eqn:EX; try discriminate. destruct (Nat.eqb (List.length fr) n) eqn:EL; [|discriminate].
    apply Nat.eqb_eq in EL. cbn in EX. cbn [x_heap forget] in H1.
    set (y := upd_heap (upd_frames (forget x) (blank ws 0 fr :: xs)) (x_heap x ++ [ts])) in *.
    assert (HX : x' = add_kids (add_seq y [List.length (x_heap x)]) [List.length (x_heap x)]) by (injection H1 as <-; reflexivity).
    destruct R as [R1 R2 R3 (fs & F1 & F2) R5 R6 R7 R8 R9 R10 R11].
    rewrite EX in F2. inversion F2 as [|? g ? fs' F3 F4]; subst fs. cbn in F1.
    assert (L0 : List.length g = n) by (rewrite <- EL; symmetry; clear - F3; induction F3; cbn; congruence).
    specialize (HP g (fs' ++ u_frames u) F1 L0). destruct HP as ((K1 & K2 & K3) & K5 & ns & gr' & N1 & N2 & N3 & N4 & N4' & N5 & N6).
    exists [ns]. destruct (more_nodes rho ns (a_fresh a) (a_fresh a') R2 R3 N3 N2 K3) as [M1 M2]. rewrite HX.
    constructor; cbn -[add_kids add_seq]; autorewrite with adds; cbn -[add_kids add_seq]; rewrite ?K1, ?K2, ?K5; auto.
    + rewrite <- N1. apply heap_more. exact R1.
    + exists (gr' :: fs'). split; [exact N4|]. constructor; [|apply frames_ext; exact F4].
      apply blank_srel with (gr := g); [|congruence|exact N5]. clear - F3. induction F3; constructor; auto. apply srel_ext. assumption.
    + rewrite (heap_len _ _ R1), N6.
      assert (X1 : exists bs0 ss ks, b :: bs = bs0 ++ grow (u_block u) ss ks :: u_blocks u /\
        Forall2 (brel (rho ++ [ns])) (x_blocks y) bs0 /\ lst (rho ++ [ns]) (x_bseq y) ss /\ lst (rho ++ [ns]) (x_bkids y) ks).
      { destruct R5 as (b1 & s1 & k1 & B1 & B2 & B3 & B4). exists b1, s1, k1. rewrite <- EB. eauto 8 using blocks_ext, lst_ext. }
      pose proof (add_seq_blocks u (rho ++ [ns]) y (b :: bs) [List.length rho] ns b bs X1 eq_refl (lst_new rho ns)) as X2.
      pose proof (add_kids_blocks u (rho ++ [ns]) (add_seq y [List.length rho]) _ [List.length rho] ns (grow b ns []) bs X2 eq_refl (lst_new rho ns)) as X3.
      rewrite grow_grow, app_nil_r in X3. exact X3.
    + apply res_ext. exact R10.
  - injection H1 as <-. subst a'. exists []. rewrite app_nil_r. exact R.
Qed.

Theorem texec_sound : forall tr x x', texec tr x = Some x' -> forall u rho l e a a',
  traced inp rest_of (fun i => performs (eff i)) tr l -> e_inp e = inp -> rel u rho x a ->
  exec e l a = XOk a' -> exists r2, rel u (rho ++ r2) x' a'.
Proof.
  induction tr as [|it tr IH]; intros x x' H u rho l e a a' HT HE R HX; cbn in H.
  - injection H as <-. inversion HT; subst. injection HX as <-. exists []. rewrite app_nil_r. exact R.
  - destruct (xitem _ _ _ _ it x) as [x1|] eqn:E1; [|discriminate].
    assert (S1 : exists l1 l2, l = l1 ++ l2 /\ traced inp rest_of (fun i => performs (eff i)) tr l2 /\
      forall a1, exec e l1 a = XOk a1 -> exists r2, rel u (rho ++ r2) x1 a1).
    { inversion HT as [|act w ? l2 HT2|i l1 ? l2 HH HT2]; subst; cbn in E1.
      - exists [(act, where_ w)], l2. split; [reflexivity|]. split; [exact HT2|]. intros a1 EA. cbn in EA.
        destruct (exec_action _ act _ a) as [a2| | |] eqn:EA2; try discriminate. cbn in EA. injection EA as <-.
        eapply xact_sound; eauto.
      - exists l1, l2. split; [reflexivity|]. split; [exact HT2|]. intros a1 EA. eapply xhole_sound; eauto. }
    destruct S1 as (l1 & l2 & -> & HT2 & S1). rewrite exec_app in HX. destruct (exec e l1 a) as [a1| | |]; try discriminate. cbn in HX.
    destruct (S1 a1 eq_refl) as (r2 & R2). destruct (IH x1 x' H u (rho ++ r2) l2 e a1 a' HT2 HE R2 HX) as (r3 & R3).
    exists (r2 ++ r3). rewrite app_assoc. exact R3.
Qed.

(** *** What is not written stays *)
Fixpoint stmt_in (ws : list nat) (s : stmt) : bool :=
  match s with
  | SLet (LVar k) _ => existsb (Nat.eqb k) ws
  | SIfNotIdent _ s => stmt_in ws s
  | _ => true
  end.
(** only variables in [ws] of the frame [d] below the last are set *)
Fixpoint sets_in (ws : list nat) (tr : list item) (d : nat) : bool :=
  match tr with
  | [] => Nat.eqb d 0
  | TA a _ :: tr =>
      match a with
      | TPush _ => sets_in ws tr (S d)
      | TPop _ => match d with 0 => false | S d => sets_in ws tr d end
      | TSet k => (match d with 0 => existsb (Nat.eqb k) ws | _ => true end) && sets_in ws tr d
      | TDo l => (match d with 0 => forallb (stmt_in ws) l | _ => true end) && sets_in ws tr d
      | _ => sets_in ws tr d
      end
  | TH i :: tr =>
      match eff i with
      | HNode _ | HAppend _ | HNone => sets_in ws tr d
      | HGrow _ ws' _ => (match d with 0 => forallb (fun k => existsb (Nat.eqb k) ws) ws' | _ => true end) && sets_in ws tr d
      | _ => false
      end
  end.
Definition same_but (ws : list nat) (d : nat) (F F' : list (list (option (option node)))) : Prop :=
  forall pre fr fs, F = pre ++ fr :: fs -> List.length pre = d ->
    exists pre' fr', F' = pre' ++ fr' :: fs /\ List.length pre' = d /\ List.length fr' = List.length fr /\
      forall i, ~ In i ws -> nth_error fr' i = nth_error fr i.
Lemma same_refl : forall ws d F, same_but ws d F F.
Proof. intros ws d F pre fr fs E L. exists pre, fr. auto. Qed.
Lemma upd_len : forall (X : Type) (l : list X) k x l', upd l k x = Some l' -> List.length l' = List.length l /\
  (forall i, i <> k -> nth_error l' i = nth_error l i).
Proof.
  intros X. induction l as [|y l IH]; intros [|k] x l' H; cbn in H; try discriminate.
  - injection H as <-. split; [reflexivity|]. intros [|i] Hi; [congruence|reflexivity].
  - destruct (upd l k x) as [l1|] eqn:E; [|discriminate]. injection H as <-. destruct (IH _ _ _ E) as [A C]. split; [cbn; congruence|].
    intros [|i] Hi; [reflexivity|]. cbn. apply C. congruence.
Qed.
Lemma put_same : forall ws d k v a a', (match d with 0 => existsb (Nat.eqb k) ws | _ => true end) = true -> put_slot k v a = XOk a' ->
  same_but ws d (a_frames a) (a_frames a').
Proof.
  intros ws d k v a a' HK H pre fr fs E L. unfold put_slot in H. rewrite E in H.
  destruct pre as [|p pre]; cbn [app] in H.
  - destruct (upd fr k (Some v)) as [f'|] eqn:EU; [|discriminate]. injection H as <-. destruct (upd_len _ _ _ _ _ EU) as [A C].
    exists [], f'. cbn [set_frames a_frames]. split; [reflexivity|]. split; [exact L|]. split; [exact A|].
    cbn in L. subst d. apply existsb_exists in HK. destruct HK as (k' & HI & HK). apply Nat.eqb_eq in HK. subst k'. intros i Hi. apply C. intros ->. auto.
  - destruct (upd p k (Some v)) as [f'|] eqn:EU; [|discriminate]. injection H as <-.
    exists (f' :: pre), fr. cbn. auto.
Qed.
Lemma rhs_frames : forall e r a v a', eval_rhs e r a = XOk (v, a') -> a_frames a' = a_frames a.
Proof.
  intros e r a v a' H. destruct r as [x|c l]; cbn in H.
  - destruct (eval_arg x a); cbn in H; try discriminate. injection H as _ <-. reflexivity.
  - destruct (eval_args l a); cbn in H; try discriminate. unfold do_build in H. destruct (a_prev a) as [b|]; try discriminate.
    destruct (build_call c) as [ty bps]. destruct (eval_bparams _ _ _ _ _ bps) as [[ps ops]|]; try discriminate.
    destruct (terminal ty && _); try discriminate. destruct (construct _ ty ps _ _); try discriminate. destruct (a_blocks a); try discriminate.
    cbn in H. injection H as _ <-. reflexivity.
Qed.
Lemma stmt_same : forall ws d e s a a', (match d with 0 => stmt_in ws s | _ => true end) = true -> exec_stmt e s a = XOk a' ->
  same_but ws d (a_frames a) (a_frames a').
Proof.
  intros ws d e s. induction s; intros a0 a' HS H; cbn [exec_stmt] in H.
  - unfold do_finished in H. destruct (fill_contexts _ _); cbn in H; try discriminate. injection H as <-. apply same_refl.
  - destruct (eval_arg a a0); cbn in H; try discriminate. injection H as <-. apply same_refl.
  - destruct (eval_arg a a0) as [v| | |]; cbn in H; try discriminate. unfold do_seq_add in H. destruct v; [|discriminate].
    destruct (a_blocks a0); [discriminate|]. injection H as <-. apply same_refl.
  - injection H as <-. apply same_refl.
  - injection H as <-. apply same_refl.
  - destruct (a_prev a0); [|discriminate]. injection H as <-. apply same_refl.
  - injection H as <-. apply same_refl.
  - injection H as <-. apply same_refl.
  - destruct (eval_rhs e r a0) as [[v a1]| | |] eqn:E; cbn in H; try discriminate. injection H as <-. apply rhs_frames in E. rewrite E. apply same_refl.
  - destruct l as [|k]; (destruct (eval_rhs e r a0) as [[v a1]| | |] eqn:E; cbn in H; try discriminate); apply rhs_frames in E.
    + injection H as <-. cbn. rewrite E. apply same_refl.
    + rewrite <- E. eapply put_same; [|exact H]. destruct d; [exact HS|reflexivity].
  - destruct (eval_arg a a0) as [v| | |]; cbn in H; try discriminate.
    destruct (match v with Some n => _ | None => _ end); [injection H as <-; apply same_refl|]. apply IHs; assumption.
Qed.
Lemma same_trans : forall ws d F1 F2 F3, same_but ws d F1 F2 -> same_but ws d F2 F3 -> same_but ws d F1 F3.
Proof.
  intros ws d F1 F2 F3 H1 H2 pre fr fs E L. destruct (H1 pre fr fs E L) as (p1 & f1 & E1 & L1 & A1 & B1).
  destruct (H2 p1 f1 fs E1 L1) as (p2 & f2 & E2 & L2 & A2 & B2). exists p2, f2. split; [exact E2|]. split; [exact L2|]. split; [congruence|].
  intros i Hi. rewrite B2, B1; auto.
Qed.
Lemma stmts_same : forall ws d e l a a', (match d with 0 => forallb (stmt_in ws) l | _ => true end) = true -> exec_stmts e l a = XOk a' ->
  same_but ws d (a_frames a) (a_frames a').
Proof.
  intros ws d e. induction l as [|s l IH]; intros a a' HS H; cbn in H.
  - injection H as <-. apply same_refl.
  - destruct (exec_stmt e s a) as [a1| | |] eqn:E; cbn in H; try discriminate. eapply same_trans.
    + eapply stmt_same; [|exact E]. destruct d; [|reflexivity]. cbn in HS. apply andb_prop in HS. apply HS.
    + apply IH; [|exact H]. destruct d; [|reflexivity]. cbn in HS. apply andb_prop in HS. apply HS.
Qed.
Lemma blocks_frames : forall e act p a a', exec_action e act p a = XOk a' ->
  In act [TBlockStart; TBlockEnd; TBlockReplace; TBlockMerge] -> a_frames a' = a_frames a.
Proof.
  intros e act p a a' H HI. cbn in HI. destruct HI as [<-|[<-|[<-|[<-|[]]]]]; cbn in H.
  - unfold do_block_start in H. destruct (x_position e p); cbn in H; try discriminate. injection H as <-. unfold block_free. destruct (a_prev a); reflexivity.
  - unfold do_block_end, close_block in H. destruct (x_position e p); cbn in H; try discriminate.
    destruct (a_blocks a); try discriminate. destruct (_ && _); try discriminate. cbn in H. injection H as <-. reflexivity.
  - unfold do_block_replace, close_block in H. destruct (x_position e p); cbn in H; try discriminate.
    destruct (a_blocks a); try discriminate. destruct (_ && _); try discriminate. cbn in H. injection H as <-. reflexivity.
  - unfold do_block_merge, close_block in H. destruct (x_position e p); cbn in H; try discriminate.
    destruct (a_blocks a) as [|b bs]; try discriminate. destruct (_ && _); try discriminate. cbn in H. destruct (b_kids b); [injection H as <-; reflexivity|].
    destruct bs; try discriminate. injection H as <-. reflexivity.
Qed.
Theorem texec_same : forall ws tr d x x', texec tr x = Some x' -> sets_in ws tr d = true -> forall u rho l e a a',
  traced inp rest_of (fun i => performs (eff i)) tr l -> e_inp e = inp -> rel u rho x a -> exec e l a = XOk a' ->
  forall pre fr fs, a_frames a = pre ++ fr :: fs -> List.length pre = d ->
    exists fr', a_frames a' = fr' :: fs /\ List.length fr' = List.length fr /\ forall i, ~ In i ws -> nth_error fr' i = nth_error fr i.
Proof.
  intros ws. induction tr as [|it tr IH]; intros d x x' H HD u rho l e a a' HT HE R HX pre fr fs EF LF; cbn in H.
  - cbn in HD. apply Nat.eqb_eq in HD. subst d. destruct pre; [|discriminate LF]. inversion HT; subst. injection HX as <-. exists fr. auto.
  - destruct (xitem _ _ _ _ it x) as [x1|] eqn:E1; [|discriminate].
    inversion HT as [|act w ? l2 HT2|i l1 ? l2 HH HT2]; subst; cbn in E1.
    + cbn [exec] in HX. destruct (exec_action _ act _ a) as [a1| | |] eqn:EA; try discriminate. cbn [xbind] in HX.
      destruct (xact_sound _ _ _ _ _ _ _ _ _ R HE E1 EA) as (r2 & R2).
      destruct act; cbn [sets_in] in HD.
      * cbn in EA. injection EA as <-. eapply (IH _ _ _ H HD _ _ _ _ _ _ HT2 HE R2 HX (repeat None n :: pre)); [cbn; rewrite EF; reflexivity|cbn; lia].
      * destruct pre as [|p0 pre]; [discriminate HD|]. cbn in HD. cbn in EA. injection EA as <-.
        eapply (IH _ _ _ H HD _ _ _ _ _ _ HT2 HE R2 HX pre); [cbn; rewrite EF; reflexivity|reflexivity].
      * apply andb_prop in HD as [D1 D2]. cbn in EA. destruct (put_same _ _ _ _ _ _ D1 EA pre fr fs EF eq_refl) as (p1 & f1 & P1 & P2 & P3 & P4).
        destruct (IH _ _ _ H D2 _ _ _ _ _ _ HT2 HE R2 HX p1 f1 fs P1 P2) as (f2 & Q1 & Q2 & Q3). exists f2. split; [exact Q1|]. split; [congruence|].
        intros i Hi. rewrite Q3, P4; auto.
      * assert (K := blocks_frames _ _ _ _ _ EA ltac:(cbn; tauto)). rewrite <- K in EF. eapply (IH _ _ _ H HD); eauto.
      * assert (K := blocks_frames _ _ _ _ _ EA ltac:(cbn; tauto)). rewrite <- K in EF. eapply (IH _ _ _ H HD); eauto.
      * assert (K := blocks_frames _ _ _ _ _ EA ltac:(cbn; tauto)). rewrite <- K in EF. eapply (IH _ _ _ H HD); eauto.
      * assert (K := blocks_frames _ _ _ _ _ EA ltac:(cbn; tauto)). rewrite <- K in EF. eapply (IH _ _ _ H HD); eauto.
      * apply andb_prop in HD as [D1 D2]. cbn in EA. destruct (stmts_same _ _ _ _ _ _ D1 EA pre fr fs EF eq_refl) as (p1 & f1 & P1 & P2 & P3 & P4).
        destruct (IH _ _ _ H D2 _ _ _ _ _ _ HT2 HE R2 HX p1 f1 fs P1 P2) as (f2 & Q1 & Q2 & Q3). exists f2. split; [exact Q1|]. split; [congruence|].
        intros i Hi. rewrite Q3, P4; auto.
    + rewrite exec_app in HX. destruct (exec e l1 a) as [a1| | |] eqn:EA; cbn in HX; try discriminate.
      destruct (xhole_sound _ _ _ _ _ _ _ _ _ HH R HE E1 EA) as (r2 & R2).
      destruct (rel_blocks_cons _ _ _ _ R) as (b & bs & EB). specialize (HH e a a1 b bs HE EA EB).
      cbn [sets_in] in HD.
      assert (HD' : sets_in ws tr (List.length pre) = true) by (destruct (eff i); first [discriminate HD|exact HD|apply andb_prop in HD; apply HD]).
      assert (K : same_but ws (List.length pre) (a_frames a) (a_frames a1)).
      { destruct (eff i) as [| | | | |n ws' ts|] eqn:EE; try discriminate HD.
        - replace (a_frames a1) with (a_frames a) by (symmetry; apply HH). apply same_refl.
        - replace (a_frames a1) with (a_frames a) by (symmetry; apply HH). apply same_refl.
        - apply andb_prop in HD as [D1 _]. unfold xhole in E1. rewrite EE in E1. cbn [forget x_frames] in E1.
          destruct (x_frames x) as [|fx xs] eqn:EX; [discriminate|]. destruct (Nat.eqb_spec (List.length fx) n) as [EL|]; [|discriminate].
          pose proof R as [_ _ _ (fs0 & F1 & F2) _ _ _ _ _ _ _]. rewrite EX in F2. inversion F2 as [|? g0 ? fs' F3 F4]; subst fs0. cbn in F1.
          assert (L0 : List.length g0 = n) by (rewrite <- EL; symmetry; clear - F3; induction F3; cbn; congruence).
          destruct (HH g0 (fs' ++ u_frames u) F1 L0) as (_ & _ & ns & g1 & _ & _ & _ & N4 & N4' & N5 & _).
          intros pre2 fr2 fs2 EF2 LF2. rewrite F1 in EF2. rewrite N4. destruct pre2 as [|p2 pre2]; cbn [app] in EF2; injection EF2 as -> E2.
          + rewrite E2. exists [], g1. split; [reflexivity|]. split; [exact LF2|]. split; [congruence|]. intros j Hj. apply N5. intros HI. apply Hj.
            rewrite <- LF2 in D1. cbn in D1. rewrite forallb_forall in D1. specialize (D1 j HI). apply existsb_exists in D1. destruct D1 as (k & K1 & K2).
            apply Nat.eqb_eq in K2. subst k. exact K1.
          + rewrite E2. exists (g1 :: pre2), fr2. cbn in LF2 |- *. auto.
        - subst a1. apply same_refl. }
      destruct (K pre fr fs EF eq_refl) as (p1 & f1 & P1 & P2 & P3 & P4).
      destruct (IH _ _ _ H HD' _ _ _ _ _ _ HT2 HE R2 HX p1 f1 fs P1 P2) as (f2 & Q1 & Q2 & Q3). exists f2. split; [exact Q1|]. split; [congruence|].
      intros j Hj. rewrite Q3, P4; auto.
Qed.
End Sound.
