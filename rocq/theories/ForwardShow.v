(** * The text of a statement is one of its texts *)
From Coq Require Import List Bool Arith Ascii String.
From Verif Require Import Peg QuickModel CypherSyntax AstTypes LexSpec TermSpec ExprSpec StmtSpec StmtShow ForwardReturn.
Import ListNotations.
Opaque CypherParse.parse_one.

Lemma show_ex : forall e, good_ex e -> prints 0 e (show 0 e).
Proof. intros e [H1 H2]. apply show_prints; assumption. Qed.
Lemma show_some : forall A (P : A -> bytes -> Prop) (f : A -> bytes) (g : A -> Prop) w x,
  (forall y, g y -> P y (f y)) -> opt_good g x -> maybe w P x (some_text w f x).
Proof. intros A P f g w [y|] H HG; [apply mb_some, H, HG|apply mb_none]. Qed.
Lemma show_commas : forall A (P : A -> bytes -> Prop) (f : A -> bytes) (g : A -> Prop) l,
  (forall y, g y -> P y (f y)) -> all_all g l -> commas P l (more_text f l).
Proof.
  intros A P f g l H. induction l as [|x l IH]; intros HG; [apply cm_none|]. destruct HG as [HG1 HG2].
  change (more_text f (x :: l)) with ((B ", " ++ f x) ++ more_text f l). apply cm_some; auto.
Qed.
Lemma show_listed : forall A (P : A -> bytes -> Prop) (f : A -> bytes) (g : A -> Prop) l,
  (forall y, g y -> P y (f y)) -> good_list g l -> listed P l (all_text f l).
Proof. intros A P f g [|x l] H [HN HG]; [congruence|]. destruct HG as [HG1 HG2]. apply ls_all; [auto|eapply show_commas; eauto]. Qed.
Lemma show_chained : forall A (P : A -> bytes -> Prop) (f : A -> bytes) (g : A -> Prop) l,
  (forall y, g y -> P y (f y)) -> all_all g l -> chained P l (flat_map f l).
Proof. intros A P f g l H. induction l as [|x l IH]; intros HG; [apply ch_none|]. destruct HG as [HG1 HG2]. apply ch_some; auto. Qed.
Lemma show_name : forall x, plain_name x -> prints_name x (name_text x).
Proof. intros x H. constructor. exact H. Qed.
Lemma show_label : forall x, plain_name x -> prints_label x (label_text x).
Proof. intros x H. constructor. exact H. Qed.
Lemma show_dot : forall x, plain_name x -> prints_dot x (B ". " ++ name_text x).
Proof. intros x H. constructor. exact H. Qed.
Lemma show_props : forall p, good_props p -> prints_props p (props_text p).
Proof. intros [|es|v] H; [constructor|apply pp_map; destruct H; apply show_prints; assumption|apply pp_param, H]. Qed.
Lemma show_node : forall n, good_node n -> prints_node n (node_text n).
Proof.
  intros [x ls p] (H1 & H2 & H3). apply pn_node; [exact (show_some _ _ _ _ _ _ show_name H1)|exact (show_chained _ _ _ _ _ show_label H2)|exact (show_props _ H3)].
Qed.
Lemma show_bound : forall v, opt_good digits v -> prints_bound v (bound_text v).
Proof. intros [v|] H; [apply pb_some, H|apply pb_none]. Qed.
Lemma show_steps : forall s, good_steps s -> prints_steps s (steps_text s).
Proof. intros [| |v|a b] H; [constructor|constructor|apply ps_exactly, H|destruct H; apply ps_between; apply show_bound; assumption]. Qed.
Lemma show_types : forall ts, all_all plain_name ts -> prints_types ts (types_text ts).
Proof.
  intros [|x xs] H; [constructor|]. destruct H as [H1 H2]. apply pt_some; [exact H1|].
  refine (show_chained _ _ (fun y => B "| " ++ name_text y) _ _ _ H2). intros y Hy. apply py_bare, Hy.
Qed.
Lemma show_rel : forall r, good_rel r -> prints_rel r (rel_text r).
Proof.
  intros [d x ts s p] (H1 & H2 & H3 & H4). cbn [r_name r_types r_steps r_props r_dir] in *. unfold rel_text. cbn [r_name r_types r_steps r_props r_dir].
  apply pr_full; [destruct d; left; reflexivity|exact (show_some _ _ _ _ _ _ show_name H1)|exact (show_types _ H2)|exact (show_steps _ H3)|exact (show_props _ H4)].
Qed.
Lemma show_part : forall p, good_part p -> prints_part p (part_text p).
Proof.
  intros [x s n ls] (H1 & H2 & H3). cbn [pt_name pt_node pt_links] in *. unfold part_text. cbn [pt_name pt_shape pt_node pt_links]. apply pp_part.
  - eapply show_some; [|exact H1]. intros y Hy. exists (name_text y). split; [apply show_name, Hy|reflexivity].
  - apply ph_path; [apply show_node, H2|]. eapply show_chained; [|exact H3]. intros [r m] [K1 K2]. apply pk_link; [apply show_rel, K1|apply show_node, K2].
Qed.
Lemma show_pattern : forall ps, good_list good_part ps -> prints_pattern ps (pattern_text ps).
Proof. intros ps H. exists (all_text part_text ps). split; [exact (show_listed _ _ _ _ _ show_part H)|reflexivity]. Qed.
Lemma show_sitem : forall i, good_sitem i -> prints_sitem i (sitem_text i).
Proof.
  intros [x ps e|x e|x e|x ls] H; cbn [good_sitem] in H.
  - destruct H as (H1 & [H2 H3] & H4). apply pi_prop; [exact H1|exact H2|exact (show_chained _ _ _ _ _ show_dot H3)|apply show_ex, H4].
  - destruct H. apply pi_all; [assumption|apply show_ex; assumption].
  - destruct H. apply pi_merge; [assumption|apply show_ex; assumption].
  - destruct H as (H1 & H2 & H3). apply pi_labels; [exact H1|exact H2|exact (show_chained _ _ _ _ _ show_label H3)].
Qed.
Lemma show_ritem : forall i, good_ritem i -> prints_ritem i (ritem_text i).
Proof.
  intros [x ps|x ls] (H1 & H2 & H3).
  - apply pr_prop; [exact H1|exact H2|exact (show_chained _ _ _ _ _ show_dot H3)].
  - apply pr_labels; [exact H1|exact H2|exact (show_chained _ _ _ _ _ show_label H3)].
Qed.
Lemma show_act : forall a, good_list good_sitem (snd a) -> prints_act a (act_text a).
Proof. intros [b is] H. apply pc_act. exact (show_listed _ _ _ _ _ show_sitem H). Qed.
Lemma show_return_proj : forall p, good_return_proj p -> prints_return_proj p (return_proj_text p).
Proof.
  intros [e [x|]] [H1 H2]; cbn [fst snd] in *; unfold return_proj_text; cbn [fst snd some_text].
  - apply pj_return; [apply show_ex, H1|exact H2].
  - destruct H2 as [v ->]. rewrite app_nil_r. apply pj_ident, show_ex, H1.
Qed.
Lemma show_with_proj : forall p, good_ex (fst p) /\ opt_good plain_name (snd p) -> prints_with_proj p (with_proj_text p).
Proof. intros [e x] [H1 H2]. apply pj_with; [apply show_ex, H1|exact (show_some _ _ _ _ _ _ show_name H2)]. Qed.
Lemma show_call_proj : forall p, plain_name (fst p) /\ opt_good plain_name (snd p) -> prints_call_proj p (call_proj_text p).
Proof. intros [e x] [H1 H2]. apply pj_call; [exact H1|exact (show_some _ _ _ _ _ _ show_name H2)]. Qed.
Lemma show_projs : forall A (P : A -> bytes -> Prop) (f : A -> bytes) (g : A -> Prop) star ps,
  (forall y, g y -> P y (f y)) -> good_projs g star ps -> prints_projs P star ps (projs_text f star ps).
Proof.
  intros A P f g [|] ps H [H1 H2]; cbn [projs_text].
  - apply px_star. eapply show_commas; eauto.
  - apply px_list. eapply show_listed; [exact H|]. split; [apply H1; reflexivity|exact H2].
Qed.
Lemma show_sort : forall o : ex * bool, good_ex (fst o) -> prints_sort o (sort_text o).
Proof. intros [e [|]] H; apply po_sort; [apply show_ex, H|cbn; auto|apply show_ex, H|cbn; auto 6]. Qed.
Lemma show_order : forall o, good_order o -> prints_order o (order_text o).
Proof. intros [|x o] H; [apply po_no|]. apply po_by. eapply show_listed; [exact show_sort|]. split; [discriminate|exact H]. Qed.
Lemma show_args : forall es, all_all good_ex es -> prints_args es (args_text es).
Proof. intros [|x o] H; [apply pg_empty|]. apply pg_some. eapply show_listed; [exact show_ex|]. split; [discriminate|exact H]. Qed.

Lemma show_mhint : forall h, good_mhint h -> prints_mhint h (mhint_text h).
Proof.
  intros [x l p|x l|xs] H; cbn [good_mhint mhint_text] in *.
  - destruct H as (H1 & H2 & H3). apply pm_index; assumption.
  - destruct H as [H1 H2]. apply pm_scan; assumption.
  - apply pm_join. exact (show_listed _ _ _ _ _ show_name H).
Qed.
Lemma show_lookup : forall k, good_lookup k -> prints_lookup k (lookup_text k).
Proof. intros [v|v] H; [apply pl_string, quote_text|apply pl_param, H]. Qed.
Lemma show_id : forall v, digits v -> prints_id v (v ++ B " ").
Proof. intros v H. constructor. exact H. Qed.
Lemma show_spoint : forall p, good_spoint p -> prints_spoint p (spoint_text p).
Proof.
  intros [x r s] [HX H]. cbn [sp_name sp_source] in *. unfold spoint_text. cbn [sp_name sp_rel sp_source].
  apply pz_point; [exact HX|destruct r; left; reflexivity|]. destruct s as [i q k|i k|vs|]; cbn [source_text].
  - destruct H as (H1 & H2 & H3). apply ps_lookup; [exact H1|exact H2|apply show_lookup, H3].
  - destruct H as [H1 H2]. apply ps_search; [exact H1|apply show_lookup, H2].
  - apply ps_ids. exact (show_listed _ _ _ _ _ show_id H).
  - apply ps_all.
Qed.
Lemma show_clause : forall c, good_clause c -> prints_clause c (clause_text c).
Proof.
  fix IH 1. intros c H. destruct c; cbn [good_clause] in H; cbn [clause_text].
  - destruct H as (H1 & H2 & H3). apply pc_match; [apply show_pattern, H1|exact (show_chained _ _ _ _ _ show_mhint H2)|exact (show_some _ _ _ _ _ _ show_ex H3)].
  - destruct H as [H1 H2]. apply pc_start; [exact (show_listed _ _ _ _ _ show_spoint H1)|exact (show_some _ _ _ _ _ _ show_ex H2)].
  - destruct H as (H1 & H2 & H3 & H4). apply pc_return; [exact (show_projs _ _ _ _ _ _ show_return_proj H1)|apply show_order, H2
      |exact (show_some _ _ _ _ _ _ show_ex H3)|exact (show_some _ _ _ _ _ _ show_ex H4)].
  - destruct H as (H1 & H2 & H3 & H4 & H5). apply pc_with; [exact (show_projs _ _ _ _ _ _ show_with_proj H1)|apply show_order, H2
      |exact (show_some _ _ _ _ _ _ show_ex H3)|exact (show_some _ _ _ _ _ _ show_ex H4)|exact (show_some _ _ _ _ _ _ show_ex H5)].
  - destruct H. apply pc_unwind; [apply show_ex; assumption|assumption].
  - destruct H as [H1 H2]. apply pc_merge; [apply show_part, H1|exact (show_chained _ _ _ _ _ show_act H2)].
  - apply pc_create. apply show_pattern, H.
  - apply pc_set. exact (show_listed _ _ _ _ _ show_sitem H).
  - apply pc_delete. exact (show_listed _ _ _ _ _ show_ex H).
  - apply pc_remove. exact (show_listed _ _ _ _ _ show_ritem H).
  - destruct H as (H1 & H2 & H3 & H4). apply pc_foreach; [exact H1|apply show_ex, H2|].
    clear - IH H3 H4. induction cs as [|c cs IHc]; [congruence|]. destruct H4 as [G1 G2]. cbn [flat_map]. destruct cs as [|c' cs].
    + cbn [flat_map]. rewrite app_nil_r. apply pcs_last, IH, G1.
    + apply pcs_more; [apply IH, G1|apply IHc; [discriminate|exact G2]].
  - destruct H as (H1 & H2 & H3 & H4).
    assert (K : exists y, maybe (B "YIELD ") (listed prints_call_proj) y (yield_text ys) /\ ys = match y with Some l => l | None => [] end).
    { destruct ys as [|y ys]; [exists None; split; [apply mb_none|reflexivity]|]. exists (Some (y :: ys)). split; [|reflexivity].
      apply mb_some. eapply show_listed; [exact show_call_proj|]. split; [discriminate|exact H3]. }
    destruct K as (y & K1 & K2). rewrite K2 at 1. apply pc_call; [exact H1|apply show_args, H2|exact K1|exact (show_some _ _ _ _ _ _ show_ex H4)].
  - destruct H. apply pc_load; [apply show_ex; assumption|assumption|]. destruct t as [v|]; [|apply mb_none]. apply (mb_some _ _ v (quote v ++ B " ")).
    exists (quote v). split; [apply quote_text|reflexivity].
  - apply pc_union.
Qed.
Lemma show_clauses : forall cs, good_list good_clause cs -> prints_clauses cs (flat_map clause_text cs).
Proof.
  intros cs [HN HG]. induction cs as [|c cs IH]; [congruence|]. destruct HG as [G1 G2]. cbn [flat_map]. destruct cs as [|c' cs].
  - cbn [flat_map]. rewrite app_nil_r. apply pcs_last, show_clause, G1.
  - apply pcs_more; [apply show_clause, G1|apply IH; [discriminate|exact G2]].
Qed.
Lemma show_stmt : forall s, good_stmt s -> prints_stmt s (stmt_text s).
Proof.
  intros [os b] [HO H]. unfold stmt_text. cbn [s_opts s_body]. apply py_stmt.
  - cbn [s_opts] in HO. clear H. induction os as [|o os IH]; [apply ch_none|]. destruct HO as [HO1 HO2].
    apply ch_some; [constructor; exact HO1|apply IH, HO2].
  - cbn [s_body] in H. destruct b as [hs cs|c l ps|c w x e q]; cbn [good_body body_text] in *.
    + destruct H as [H1 H2]. apply py_query; [|apply show_clauses, H2]. eapply show_chained; [|exact H1]. intros v Hv. constructor. apply show_bound, Hv.
    + destruct H as [H1 H2]. apply py_index; [exact H1|exact (show_listed _ _ _ _ _ show_name H2)].
    + destruct H as (H1 & H2 & H3 & H4). apply py_constraint; [|apply show_ex, H3|exact H4]. destruct w; constructor; assumption.
Qed.
