(** * Scripts are read statement by statement (C52), and client commands are read as written (C53)

    Specification: ScriptSpec.v (texts of scripts, what a segment says), StmtSpec.v
    (statements, their texts, their trees), CommandSpec.v (client commands). Model: CypherParse.v (parser.c,
    parser.leg). *)
From Coq Require Import List Bool Arith ZArith Ascii String Lia.
From Verif Require Import Peg QuickModel ErrModel CypherSyntax AstTypes AstModel CypherParse CypherSpec CypherLoop
  PropCypher SafeSpec LexSpec TermSpec ExprSpec StmtSpec StmtShow CommandSpec ScriptSpec ForwardStatement ForwardReturn ForwardShow ForwardCommand ForwardScript PropExpr PropStmt.
Import ListNotations.
Opaque parse_one cfuel.

(** ** The statements and commands, all of them, in order *)
(** Partial: the statements are those of PropStmt.v, the commands those of
    CommandSpec.v, and no newline follows a backquote; comments between statements
    are not among the texts. *)
Theorem scripts_read_back_partial : forall cf la fl ss u,
  prints_script ss u -> Forall (allowed fl) ss -> no_newline_in_names u -> sees_all la -> pf_single fl = false ->
  exists r last, parse_all cf la fl u = ARes r last /\ pr_errors r = [] /\
    map term_of (pr_roots r) = map entry_term ss /\ pr_directives r = map nid (pr_roots r).
Proof. exact script_parse_all. Qed.
Print Assumptions scripts_read_back_partial.

(** The callback gets one segment for each statement or command, in order, and in between only
    segments with nothing in them. *)
Theorem scripts_reach_the_callback_partial : forall cf la cb fl ss u,
  prints_script ss u -> Forall (allowed fl) ss -> no_newline_in_names u -> sees_all la -> pf_single fl = false -> (forall segs, cb segs = 0%Z) ->
  exists segs last, parse_each cf la cb fl u = PRet 0 segs last /\ Forall clean segs /\
    map terms_of (filter has_directive segs) = map (fun s => [entry_term s]) ss.
Proof. exact script_parse. Qed.
Print Assumptions scripts_reach_the_callback_partial.

(** When only one is asked for, the first is given whatever follows it. *)
Theorem single_reads_the_first_partial : forall cf la cb fl g s u rest,
  allowed fl s -> white g -> prints_entry s u -> no_newline_in_names (g ++ u ++ rest) -> sees_all la -> pf_single fl = true ->
  (forall segs, cb segs = 0%Z) ->
  exists seg root en, parse_each cf la cb fl (g ++ u ++ rest) = PRet 0 [seg] (Some en) /\ s_errors seg = [] /\
    s_roots seg = [root] /\ s_directive seg = Some (nid root) /\ s_eof seg = false /\ term_of root = entry_term s.
Proof. exact script_single. Qed.
Print Assumptions single_reads_the_first_partial.

(** ** Scripts one after the other *)
Lemma white_app : forall g h, white g -> white h -> white (g ++ h).
Proof. induction 1; intros HH; cbn; [assumption|apply wh_char; auto|apply wh_crlf; auto]. Qed.
Lemma white_before : forall g ss u, white g -> prints_script ss u -> prints_script ss (g ++ u).
Proof.
  intros g ss u HG H. destruct H; [apply ps_end|rewrite app_assoc; apply ps_entry|rewrite app_assoc; apply ps_empty]; auto; apply white_app; assumption.
Qed.
Lemma script_app : forall ss ss' u u', prints_script ss u -> prints_script ss' u' -> prints_script (ss ++ ss') (u ++ u').
Proof.
  intros ss ss' u u' H H'. induction H; cbn [app]; rewrite <- ?app_assoc; [apply white_before; assumption|apply ps_entry; auto|].
  change ((B ";" ++ us) ++ u') with (B ";" ++ (us ++ u')). apply ps_empty; auto.
Qed.
Theorem scripts_concatenate_partial : forall cf la fl ss ss' u u',
  prints_script ss u -> prints_script ss' u' -> Forall (allowed fl) (ss ++ ss') -> no_newline_in_names (u ++ u') -> sees_all la -> pf_single fl = false ->
  exists r last, parse_all cf la fl (u ++ u') = ARes r last /\ pr_errors r = [] /\
    map term_of (pr_roots r) = map entry_term ss ++ map entry_term ss'.
Proof.
  intros cf la fl ss ss' u u' H H' HA HN Hla Hfl.
  destruct (scripts_read_back_partial cf la fl _ _ (script_app _ _ _ _ H H') HA HN Hla Hfl) as (r & last & K1 & K2 & K3 & _).
  exists r, last. rewrite <- map_app. auto.
Qed.
Print Assumptions scripts_concatenate_partial.

(** ** Client commands *)
Ltac plain_ := apply pw_plain; split; [discriminate|let c := fresh in let H := fresh in intros c H; repeat (destruct H as [<-|H]; [cbn; intuition discriminate|]); destruct H].
Ltac blanks_ := let c := fresh in let H := fresh in intros c H; repeat (destruct H as [<-|H]; [left; reflexivity|]); destruct H.
(** Partial: words have no slash outside quotes, there are no comments, and a semicolon
    or the end of a line ends the command. *)
Theorem commands_read_back_partial : forall cf la fl n args u,
  prints_command n args u -> no_newline_in_names u -> sees_all la -> pf_only_statements fl = false ->
  parses_to cf la fl u (command_term n args).
Proof.
  intros cf la fl n args u H HN Hla HO. pose proof (pe_command n args u H) as HE.
  assert (HA : allowed fl (Command n args)) by (intros K; congruence).
  destruct (pf_single fl) eqn:HS.
  - assert (HN' : no_newline_in_names ([] ++ u ++ [])) by (cbn [app]; rewrite app_nil_r; exact HN).
    destruct (script_single cf la never fl [] _ u [] HA wh_none HE HN' Hla HS (fun _ => eq_refl)) as (seg & root & en & K1 & K2 & K3 & K4 & K5 & K6).
    cbn [app] in K1. rewrite app_nil_r in K1. unfold parses_to, parse_all. fold never. rewrite K1. cbn [fold_left].
    eexists _, root, (Some en). split; [reflexivity|]. cbn. rewrite K2, K3, K4. auto.
  - assert (HP : prints_script [Command n args] ([] ++ u ++ [])) by (apply ps_entry; [apply wh_none|exact HE|apply ps_end, wh_none]).
    cbn [app] in HP. rewrite app_nil_r in HP.
    destruct (script_parse_all cf la fl _ u HP (Forall_cons _ HA (Forall_nil _)) HN Hla HS) as (r & last & K1 & K2 & K3 & K4).
    destruct (pr_roots r) as [|root [|? ?]] eqn:ER; try discriminate. injection K3 as K3.
    exists r, root, last. auto.
Qed.
Print Assumptions commands_read_back_partial.

(** No text of a command has two readings. *)
Theorem command_texts_unambiguous : forall n args n' args' u, prints_command n args u -> prints_command n' args' u ->
  no_newline_in_names u -> n = n' /\ args = args'.
Proof.
  intros n args n' args' u H H' HN.
  assert (HW : sees_all whole) by (intros ? p; unfold whole; lia).
  destruct (commands_read_back_partial std_config whole plain n args u H HN HW eq_refl) as (r & root & l & A1 & A2 & A3 & A4 & A5).
  destruct (commands_read_back_partial std_config whole plain n' args' u H' HN HW eq_refl) as (r' & root' & l' & B1 & B2 & B3 & B4 & B5).
  rewrite A1 in B1. injection B1 as -> _. rewrite A3 in B3. injection B3 as ->. rewrite A5 in B5. unfold command_term, named in B5.
  injection B5 as E1 E2. split; [exact E1|]. clear - E2. revert args' E2.
  induction args as [|x args IH]; intros [|y args'] E; try discriminate; [reflexivity|]. injection E as -> E. f_equal. apply IH, E.
Qed.
Print Assumptions command_texts_unambiguous.

(** a word of plain, quoted and escaped parts *)
Example mixed_word_meets : prints_command (B "set") [B "a=b c;d"] (B ":set a='b c'\;d;").
Proof.
  refine (pm_command (B "set") _ [] (B "set") (B " ") (B "a='b c'\;d") (B ";") _ _ _ _ (pws_last _ _ _) _); [intros c []|plain_|blanks_|discriminate| |left; reflexivity].
  split; [discriminate|].
  apply sp_plain; [cbn; intuition discriminate|]. apply sp_plain; [cbn; intuition discriminate|].
  refine (sp_quoted (B "b c") (B "'b c'") _ _ _ _); [exists "'"%char, (B "b c"); split; [left; reflexivity|split; reflexivity]|].
  apply sp_semi, sp_plain; [cbn; intuition discriminate|apply sp_none].
Qed.

(** With CYPHER_PARSE_ONLY_STATEMENTS the same text is an error. *)
Example commands_need_the_flag : exists n args u r last,
  prints_command n args u /\ no_newline_in_names u /\ parse_all std_config whole (mkpf false true) u = ARes r last /\ pr_errors r <> [].
Proof.
  exists (B "help"), [], (B ":help;").
  destruct (parse_all std_config whole (mkpf false true) (B ":help;")) as [r last| |] eqn:E;
    [|exfalso; vm_compute in E; discriminate E|exfalso; vm_compute in E; discriminate E].
  exists r, last. split; [|split; [|split; [reflexivity|vm_compute in E; injection E as <- _; vm_compute; discriminate]]].
  - refine (pm_bare (B "help") [] (B "help") (B ";") _ _ _); [intros c []|plain_|left; reflexivity].
  - intros a b c K. assert (H : In "`"%char (B ":help;")) by (rewrite K; apply in_or_app; right; left; reflexivity).
    cbn in H. intuition discriminate.
Qed.

(** ** Every list of statements and commands can be written and is read back *)
Lemma words_text : forall vs, prints_words vs (flat_map (fun v => quote v ++ B " ") vs).
Proof.
  induction vs as [|v vs IH]; [apply pws_none|]. cbn [flat_map]. rewrite <- app_assoc. apply pws_more; [apply pw_quoted, quote_text| |discriminate|exact IH].
  intros c [<-|[]]. left. reflexivity.
Qed.
Lemma entry_line_prints : forall e, good_entry e -> prints_entry e (entry_line e).
Proof.
  intros [s|n args] H; [apply pe_statement, show_stmt, H|]. apply pe_command. cbn [entry_line flat_map].
  rewrite <- (app_assoc (quote n ++ B " ")). refine (pm_command n args [] (quote n) (B " ") _ (B ";") _ _ _ _ (words_text args) _);
    [intros c []|apply pw_quoted, quote_text|intros c [<-|[]]; left; reflexivity|discriminate|left; reflexivity].
Qed.
Lemma script_text_prints : forall ss, Forall good_entry ss -> prints_script ss (script_text ss).
Proof.
  induction 1 as [|s ss HG H IH]; [apply ps_end, wh_none|]. unfold script_text. cbn [flat_map].
  rewrite <- app_assoc.
  refine (ps_entry [] s (entry_line s) ss (B " " ++ script_text ss) wh_none (entry_line_prints _ HG) _).
  apply white_before; [apply wh_char; [left; reflexivity|apply wh_none]|exact IH].
Qed.
Theorem script_text_read_back_partial : forall cf la fl ss,
  Forall good_entry ss -> Forall (allowed fl) ss -> no_newline_in_names (script_text ss) -> sees_all la -> pf_single fl = false ->
  exists r last, parse_all cf la fl (script_text ss) = ARes r last /\ pr_errors r = [] /\
    map term_of (pr_roots r) = map entry_term ss /\ pr_directives r = map nid (pr_roots r).
Proof. intros cf la fl ss HG HA HN Hla Hfl. apply scripts_read_back_partial; auto. apply script_text_prints, HG. Qed.
Print Assumptions script_text_read_back_partial.

(** *** The hypotheses are met *)
Lemma absent : forall c s, existsb (Ascii.eqb c) s = false -> ~ In c s.
Proof.
  intros c s H HI. assert (K : existsb (Ascii.eqb c) s = true) by (apply existsb_exists; exists c; split; [exact HI|apply Ascii.eqb_refl]). congruence.
Qed.
Definition sample_script : list entry :=
  [Statement sample_index; Statement sample_stmt; Command (B "param") [B "x"; B "it's; so"]; Statement sample_constraint; Command (B "exit") []].
Example sample_script_meets : Forall good_entry sample_script /\ Forall (allowed plain) sample_script /\ no_newline_in_names (script_text sample_script) /\ sees_all whole /\
  pf_single plain = false /\ script_text [Statement sample_index; Command (B "param") [B "x"; B "it's; so"]] = B "CREATE INDEX ON : `L` ( `p` , `q` ) ; :'param' 'x' 'it\'s; so' ; ".
Proof.
  destruct sample_stmt_meets as (S1 & _ & S3). pose proof sample_schema_meets as M. inversion M as [|? ? [M1 _] M']; subst.
  inversion M' as [|? ? [M2 _] _]; subst.
  split; [repeat (apply Forall_cons; [first [exact I|assumption]|]); apply Forall_nil|].
  split; [repeat (apply Forall_cons; [discriminate|]); apply Forall_nil|]. split; [|split; [exact S3|split; reflexivity]].
  apply no_newline_at_all. apply absent. vm_compute. reflexivity.
Qed.
(** line feeds, empty statements and trailing white space *)
Definition NLs : bytes := ["010"%char].
Definition star_stmt : stmt := mkstmt [] (Query [] [Return false true [] [] None None]).
Example lines_meet : let u := NLs ++ B "RETURN * ;" ++ NLs ++ B " ;;" ++ B ": set  a=1 \" ++ NLs ++ B "'b c'" ++ NLs ++ ["013"%char] ++ NLs ++ B "RETURN * ;" ++ NLs in
  prints_script [Statement star_stmt; Command (B "set") [B "a=1"; B "b c"]; Statement star_stmt] u /\ no_newline_in_names u.
Proof.
  assert (P : prints_stmt star_stmt (B "RETURN * ;")).
  { refine (show_stmt star_stmt _). unfold star_stmt. good_. }
  assert (W : white NLs) by (apply wh_char; [right; right; left; reflexivity|apply wh_none]).
  assert (C : prints_entry (Command (B "set") [B "a=1"; B "b c"]) (B ": set  a=1 \" ++ NLs ++ B "'b c'" ++ NLs)).
  { apply pe_command. refine (pm_command (B "set") _ (B " ") (B "set") (B "  ") (B "a=1 \" ++ NLs ++ B "'b c'") NLs _ _ _ _ _ _);
      [blanks_|plain_|blanks_|discriminate| |right; left; reflexivity].
    refine (pws_more _ (B "a=1") (B " ") _ (B "\" ++ NLs ++ B "'b c'") _ _ _ (pws_line [] NLs [] _ (B "'b c'") _ _ _ (pws_last _ _ _)));
      [plain_|blanks_|discriminate|intros c []|left; reflexivity|intros c []|].
    apply pw_quoted. exists "'"%char, (B "b c"). split; [left; reflexivity|]. split; reflexivity. }
  cbv zeta. split.
  - refine (ps_entry NLs _ _ _ _ W (pe_statement _ _ P) _).
    refine (ps_empty (NLs ++ B " ") _ _ (wh_char "010" _ (or_intror (or_intror (or_introl eq_refl))) (wh_char " " _ (or_introl eq_refl) wh_none)) _).
    refine (ps_empty [] _ _ wh_none _).
    refine (ps_entry [] _ (B ": set  a=1 \" ++ NLs ++ B "'b c'" ++ NLs) _ _ wh_none C _).
    refine (ps_entry ["013"%char; "010"%char] _ _ _ _ (wh_crlf _ wh_none) (pe_statement _ _ P) _).
    apply ps_end, W.
  - intros a b c E. assert (H : In "`"%char (NLs ++ B "RETURN * ;" ++ NLs ++ B " ;;" ++ B ": set  a=1 \" ++ NLs ++ B "'b c'" ++ NLs ++ ["013"%char] ++ NLs ++ B "RETURN * ;" ++ NLs)).
    { rewrite E. apply in_or_app. right. left. reflexivity. }
    revert H. apply absent. vm_compute. reflexivity.
Qed.
