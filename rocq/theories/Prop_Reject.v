(** C58: a log statement that the preprocessor cannot handle is an error. *)
From Coq Require Import String.
From Verif Require Import Base BaseProofs Chars Fmt FmtProofs Regex MicroCode MicroCodeProofs RingProofs DecodeProofs Preproc PreprocProofs PreprocLit Parser Prop_Parser Scanner SourceSpec ScanProofs StmtProofs Prop_Scanner.
Local Open Scope list_scope.
Ltac Zify.zify_post_hook ::= Z.div_mod_to_equations.

(** ** Specification *)

(** What may stand behind the name instead of a statement's arguments: a call that
    is not a statement (another character than a semicolon behind it); a call with
    one argument; a statement whose format is of no use. *)
Inductive bad_call :=
| NoSemicolon (k : call) (c : Z)
| OneArgument (sp : list Z) (a : list tok) (sp' : list Z)
| NoFormat (k : call).

Definition bad_src (b : bad_call) : list Z :=
  match b with
  | NoSemicolon k c => removelast (k_src k) ++ [c]
  | OneArgument sp a sp' => sp ++ 40 :: toks_src a ++ 41 :: sp' ++ [59]
  | NoFormat k => k_src k
  end.

Definition in_literals (t : tok) : bool := match t with TStr _ => true | TC c => is_space c | _ => false end.

(** The format is not a sequence of literals, it is empty, or it has an unsupported
    specifier; for the latter: no statement before had the same identifier. *)
Definition no_format (stmts : list stmt) (pos : list Z * Z) (k : call) : Prop :=
  forallb in_literals (k_fmt k) = false \/
  lit_text (k_fmt k) = [] \/
  (splitAndParse (lit_text (k_fmt k)) = None /\ Forall (fun c => 0 <= c) (lit_text (k_fmt k) ++ fst pos) /\
   Forall (fun s => log_id (st_fmt s) (st_file s) (st_line s) <> log_id (lit_text (k_fmt k)) (fst pos) (snd pos)) stmts).

Definition bad_wf (stmts : list stmt) (pos : list Z * Z) (b : bad_call) : Prop :=
  match b with
  | NoSemicolon k c => call_wf k /\ is_space c = false /\ c <> 59
  | OneArgument sp a sp' => forallb is_space sp = true /\ forallb is_space sp' = true /\ nested false a
  | NoFormat k => call_wf k /\ no_format stmts pos k
  end.

(** processFile ends with an error. *)
Definition fails (inputFile src : list Z) : Prop := exists n, steps n (start inputFile src) = Fail.

(** A file of C52, then a line with such a call. *)
Definition C58_for (inputFile file flags : list Z) (l1 : list group) (pre post : list Z) (l2 : list group) (p : list tok) (b : bad_call) (rest : list Z) : Prop :=
  fails inputFile (file_src ((GDir 1 file flags :: l1 ++ [GMark pre post]) ++ l2) ++ toks_src p ++ log_function ++ bad_src b ++ rest).

Definition bad_file (inputFile file flags : list Z) (l1 : list group) (pre post : list Z) (l2 : list group) (p : list tok) (b : bad_call) (rest : list Z) : Prop :=
  let pos := pos_after (inputFile, 1) ((GDir 1 file flags :: l1 ++ [GMark pre post]) ++ l2) in
  file_wf file flags l1 pre post l2 /\ before_wf p /\
  bad_wf (file_stmts (pos_after (inputFile, 1) (GDir 1 file flags :: l1 ++ [GMark pre post])) l2) pos b /\
  hd 0 (toks_src p ++ log_function) <> 35 /\ within marker_line (toks_src p ++ log_function ++ bad_src b ++ rest) = false.

Definition C58_full : Prop := forall inputFile file flags l1 pre post l2 p b rest,
  bad_file inputFile file flags l1 pre post l2 p b rest -> C58_for inputFile file flags l1 pre post l2 p b rest.

(** ** Proofs *)

Definition tame_bad (b : bad_call) : Prop :=
  match b with
  | NoSemicolon k _ | NoFormat k => tame_call k
  | OneArgument _ a _ => forallb (tame false) a = true
  end.

(** Tokens as extractCString needs them. *)
Definition fit (t : tok) : bool := lexed t && tame false t.

Lemma fit_str : forall s, fit (TStr s) = true -> forallb elem_ok s = true.
Proof. intros s H. unfold fit in H. cbn [lexed] in H. apply andb_true_iff in H as [H _]. now apply andb_true_iff in H as [H _]. Qed.

Lemma plain_chr : forall c, mem_char c syntax = false -> (c =? 34) = false /\ (c =? c_bsl) = false.
Proof.
  intros c H. unfold syntax, mem_char in H. cbn [existsb] in H. repeat (apply orb_false_iff in H as [? H]). split; auto.
Qed.

Lemma chr_in : forall l r out p, forallb tame_chr l = true -> exists out', extract (body_src l ++ 39 :: r) out true p = extract r out' true false.
Proof.
  induction l as [|e l IH]; intros r out p H.
  - exists (out ++ [39]). reflexivity.
  - cbn [forallb] in H. apply andb_true_iff in H as [He H]. cbn [body_src flat_map]. fold (body_src l). destruct e as [c|c]; cbn [elem_src app tame_chr] in *.
    + cbn [extract]. replace (c =? 34) with false; [cbn [andb]; now apply IH|]. destruct (Z.eqb_spec c 34) as [->|]; [discriminate He|reflexivity].
    + cbn [extract]. change ((c_bsl =? 34) && negb p) with false. cbv iota. change (c_bsl =? c_bsl) with true. cbn [negb]. rewrite andb_false_r. now apply IH.
Qed.

(** Once a closing quote has been missed the result is [None]. *)
Lemma lost : forall l out, forallb fit l = true -> extract (toks_src l) out true false = None.
Proof.
  induction l as [|t l IH]; intros out H; [reflexivity|]. cbn [forallb] in H. apply andb_true_iff in H as [Ht H]. rewrite toks_cons.
  destruct t as [s|s| |k|k|c]; cbn [tok_src].
  - cbn [app extract]. change ((34 =? 34) && negb false) with true. cbv iota. cbn [negb]. rewrite <- app_assoc.
    destruct (extract_body_out s ([34] ++ toks_src l) out (fit_str s Ht)) as [-> | ->]; auto.
    cbn [app extract]. change ((34 =? 34) && negb false) with true. cbv iota. cbn [negb]. auto.
  - cbn [app extract]. change ((39 =? 34) && negb false) with false. cbv iota. rewrite <- app_assoc. change ([39] ++ toks_src l) with (39 :: toks_src l).
    unfold fit in Ht. cbn [tame] in Ht. apply andb_true_iff in Ht as [_ Ht]. apply andb_true_iff in Ht as [Ht _].
    destruct (chr_in s (toks_src l) (out ++ [39]) (39 =? c_bsl) Ht) as (out' & ->). auto.
  - cbn [app extract]. change ((44 =? 34) && negb false) with false. cbv iota. change (44 =? c_bsl) with false. auto.
  - destruct k; cbn [opening app extract]; cbv iota; match goal with |- context [?x =? c_bsl] => change (x =? c_bsl) with false end; cbn [Z.eqb Pos.eqb andb]; auto.
  - destruct k; cbn [closing app extract]; cbv iota; match goal with |- context [?x =? c_bsl] => change (x =? c_bsl) with false end; cbn [Z.eqb Pos.eqb andb]; auto.
  - unfold fit in Ht. cbn [lexed tame] in Ht. rewrite andb_true_r in Ht. apply negb_true_iff in Ht. destruct (plain_chr c Ht) as [P1 P2].
    cbn [app extract]. rewrite P1, P2. cbn [andb]. auto.
Qed.

(** Literals and white space only: the text, or nothing.  Otherwise nothing. *)
Lemma extract_text : forall l out, forallb fit l = true ->
  extract (toks_src l) out false false = None \/ (forallb in_literals l = true /\ extract (toks_src l) out false false = Some (out ++ lit_text l)).
Proof.
  induction l as [|t l IH]; intros out H; [right; cbn; now rewrite app_nil_r|]. cbn [forallb] in H. apply andb_true_iff in H as [Ht H]. rewrite toks_cons.
  destruct t as [s|s| |k|k|c]; cbn [tok_src forallb in_literals lit_text flat_map] in *; try (left; try destruct k; reflexivity).
  - cbn [app extract]. change ((34 =? 34) && negb false) with true. cbv iota. cbn [negb]. rewrite <- app_assoc.
    rewrite extract_body by now apply fit_str. cbn [app extract]. change (34 =? 34) with true. destruct (aft false s); cbn [negb andb].
    + left. change (34 =? c_bsl) with false. now apply lost.
    + destruct (IH (out ++ body_src s) H) as [-> | [E ->]]; auto. right. split; auto. now rewrite <- app_assoc.
  - unfold fit in Ht. cbn [lexed tame] in Ht. rewrite andb_true_r in Ht. apply negb_true_iff in Ht. destruct (plain_chr c Ht) as [P1 _].
    cbn [app extract]. rewrite P1. cbn [andb]. destruct (is_space c); auto.
Qed.

Lemma known_not : forall st s, Forall (fun x => key x <> key s) st -> key s <> invalid_key -> lookup (key s) (process st) = None.
Proof.
  intros st s H N. destruct (lookup (key s) (process st)) as [e|] eqn:E; auto. exfalso. destruct (process_filed st) as [_ F]. destruct (F _ _ E) as [K|[K I]]; [auto|].
  rewrite Forall_forall in H. apply (H e I). auto.
Qed.

(** ** The step at the name *)

Lemma name_fails : forall A y L dn lc0 lc f n fi mk st,
  ident_char lc = false -> (exists r, skip_space (y ++ concat L) = 40 :: r) ->
  (forall level fmt others after f0 f1, parseLogStatement (y ++ concat L) = Some (level :: fmt :: others, after) -> extractCString fmt = Some (f0 :: f1) -> (exists m, mk = Some (S m)) ->
     accepts st (Stmt level (f0 :: f1) f n) = false) ->
  step (at_ (between dn ((A ++ name ++ y) :: L) lc0 f n fi mk st) (A ++ name ++ y) (length A) false false lc) = Fail.
Proof.
  intros A y L dn lc0 lc f n fi mk st LC (r & PL) H.
  assert (SK : forall o X, skipn (length A + o) (A ++ X) = skipn o X).
  { intros o X. rewrite skipn_app, skipn_all2 by lia. now replace (length A + o - length A)%nat with o by lia. }
  assert (SK0 : forall X, skipn (length A) (A ++ X) = X).
  { intro X. rewrite <- (Nat.add_0_r (length A)), SK. reflexivity. }
  assert (SK8 : forall X, skipn (length A + 8) (A ++ name ++ X) = X).
  { intro X. rewrite SK. reflexivity. }
  unfold step, at_, between, next_char. cbn [c_in in_off in_line in_escape in_quotes c_lines c_last c_done c_file c_line c_first c_mark c_stmts].
  rewrite SK0. change (name ++ y) with (78 :: [65; 78; 79; 95; 76; 79; 71] ++ y). cbv iota. change (78 =? c_bsl) with false. change (78 =? c_quote) with false.
  change (78 =? hd 0 name) with true. cbn [orb andb negb]. cbv iota. change (match_name name (78 :: [65; 78; 79; 95; 76; 79; 71] ++ y)) with (Some true). cbv iota.
  unfold ident_char in LC. rewrite LC. change (78 :: [65; 78; 79; 95; 76; 79; 71] ++ y) with (name ++ y). cbn [hd tl]. rewrite SK8, PL. cbv iota. change (40 =? c_lpar) with true. cbv iota.
  unfold inject. cbn [in_off in_line in_escape in_quotes c_lines c_last c_done c_file c_line c_first c_mark c_stmts concat hd]. cbv zeta.
  rewrite SK0, starts_self. cbn [negb]. cbv iota.
  assert (AL : (A ++ name ++ y) ++ concat L = A ++ name ++ y ++ concat L) by (now rewrite <- !app_assoc). rewrite AL, SK8.
  destruct (parseLogStatement (y ++ concat L)) as [[[|level [|fmt others]] after]|] eqn:P; auto.
  destruct (extractCString fmt) as [[|f0 f1]|] eqn:X; auto. destruct mk as [[|m]|]; auto. rewrite (H level fmt others after f0 f1); auto. eauto.
Qed.

(** ** The calls *)

Lemma removelast_src : forall k, k_src k = removelast (k_src k) ++ [59].
Proof.
  intro k. unfold k_src, call_src.
  replace (k_sp k ++ 40 :: toks_src (k_level k) ++ 44 :: toks_src (k_fmt k) ++ flat_map (fun a => 44 :: toks_src a) (k_more k) ++ 41 :: k_sp' k ++ [59])
    with ((k_sp k ++ 40 :: toks_src (k_level k) ++ 44 :: toks_src (k_fmt k) ++ flat_map (fun a => 44 :: toks_src a) (k_more k) ++ 41 :: k_sp' k) ++ [59]).
  - now rewrite removelast_last.
  - repeat (rewrite <- app_assoc; cbn [app]). reflexivity.
Qed.
Lemma open_src : forall k, exists r, removelast (k_src k) = k_sp k ++ 40 :: r /\
  r = toks_src (k_level k) ++ 44 :: toks_src (k_fmt k) ++ flat_map (fun a => 44 :: toks_src a) (k_more k) ++ 41 :: k_sp' k.
Proof.
  intro k. eexists. split; [|reflexivity]. assert (E := removelast_src k). change (k_src k) with (call_src (k_sp k) (k_level k) (k_fmt k) (k_more k) (k_sp' k)) in E at 1. unfold call_src in E at 1.
  replace (k_sp k ++ 40 :: toks_src (k_level k) ++ 44 :: toks_src (k_fmt k) ++ flat_map (fun a => 44 :: toks_src a) (k_more k) ++ 41 :: k_sp' k ++ [59])
    with ((k_sp k ++ 40 :: toks_src (k_level k) ++ 44 :: toks_src (k_fmt k) ++ flat_map (fun a => 44 :: toks_src a) (k_more k) ++ 41 :: k_sp' k) ++ [59]) in E
    by (repeat (rewrite <- app_assoc; cbn [app]); reflexivity).
  apply app_inj_tail in E as [E _]. now rewrite <- E.
Qed.

Lemma bad_opens : forall st pos b rest, bad_wf st pos b -> exists r, skip_space (bad_src b ++ rest) = 40 :: r.
Proof.
  intros st pos b rest W. destruct b as [k c|sp a sp'|k]; cbn [bad_src bad_wf] in *.
  - destruct W as ((S1 & _) & _). destruct (open_src k) as (r & -> & _). rewrite <- !app_assoc. cbn [app]. rewrite skip_spaces by auto. eauto.
  - destruct W as (S1 & _). rewrite <- app_assoc. cbn [app]. rewrite skip_spaces by auto. eauto.
  - destruct W as ((S1 & _) & _). rewrite removelast_src. destruct (open_src k) as (r & -> & _). rewrite <- !app_assoc. cbn [app]. rewrite skip_spaces by auto. eauto.
Qed.

Lemma bad_parse : forall st f n b rest, 0 <= n -> bad_wf st (f, n) b -> tame_bad b ->
  forall level fmt others after f0 f1, parseLogStatement (bad_src b ++ rest) = Some (level :: fmt :: others, after) -> extractCString fmt = Some (f0 :: f1) ->
  accepts st (Stmt level (f0 :: f1) f n) = false.
Proof.
  intros st f n b rest Hn W T level fmt others after f0 f1 P X. destruct b as [k c|sp a sp'|k]; cbn [bad_src bad_wf tame_bad] in *; [exfalso|exfalso|].
  - destruct W as ((S1 & S2 & N1 & N2 & N3 & _) & Sc & Nc). destruct T as (T1 & T2 & T3 & _). destruct (open_src k) as (r & E & ->). rewrite E in P.
    repeat (rewrite <- app_assoc in P; cbn [app] in P).
    destruct (args_cut (k_sp k) (k_level k) (k_fmt k) (k_more k) (k_sp' k ++ c :: rest)) as (o & HO); auto.
    unfold parseLogStatement in P. rewrite skip_spaces in P by auto. change (40 =? c_lpar) with true in P. cbv iota in P. rewrite HO in P.
    rewrite skip_spaces in P by auto. replace (c =? c_semi) with false in P by (unfold c_semi; lia). discriminate P.
  - destruct W as (S1 & S2 & N). rewrite <- app_assoc in P. cbn [app] in P. rewrite <- app_assoc in P. cbn [app] in P. rewrite <- app_assoc in P.
    unfold parseLogStatement in P. rewrite skip_spaces in P by auto. change (40 =? c_lpar) with true in P. cbv iota in P.
    destruct (length (sp ++ 40 :: toks_src a ++ 41 :: sp' ++ [59] ++ rest)) as [|[|fuel]] eqn:EL; [rewrite app_length in EL; cbn [length] in EL; lia|repeat (rewrite app_length in EL; cbn [length] in EL); lia|].
    rewrite loop_step in P by (auto; lia). cbn [args_loop] in P. change (41 =? c_rpar) with true in P. cbv iota in P. cbn [app] in P. rewrite skip_spaces in P by auto. change (59 =? c_semi) with true in P. cbv iota in P. discriminate P.
  - destruct W as (CW & NF). pose proof CW as (S1 & S2 & N1 & N2 & N3 & (LX & _)). pose proof T as (T1 & T2 & T3 & _).
    destruct (C51_partial (k_sp k) (k_level k) (k_fmt k) (k_more k) (k_sp' k) rest) as (o & E); auto. unfold k_src in P. rewrite E in P.
    apply some_inj in P. injection P as <- <- <- <-.
    assert (FT : forallb fit (k_fmt k) = true).
    { rewrite forallb_forall in *. intros t Ht. unfold fit. rewrite T2, LX; auto. unfold call_toks. apply in_or_app. right. right. apply in_or_app. now left. }
    unfold extractCString in X. destruct (extract_text (k_fmt k) [] FT) as [XX|[IL XX]]; rewrite XX in X; [discriminate X|]. apply some_inj in X. cbn [app] in X.
    destruct NF as [NF|[NF|(NF & NN & FA)]]; [congruence|congruence|]. rewrite X in *. cbn [fst snd] in *.
    unfold accepts. cbn [st_fmt st_file st_line]. set (s := Stmt (toks_src (k_level k)) (f0 :: f1) f n).
    change (log_id (f0 :: f1) f n) with (key s) in *. rewrite (known_not st s); [now rewrite NF|exact FA|]. apply key_valid; auto.
Qed.

(** C58 under the conditions of C52. *)
Lemma file_reach : forall inputFile file flags l1 pre post l2 R,
  file_wf file flags l1 pre post l2 -> Forall tame_group (l1 ++ l2) ->
  let head := GDir 1 file flags :: l1 ++ [GMark pre post] in
  let pos := pos_after (inputFile, 1) (head ++ l2) in
  exists dn lc m, ident_char lc = false /\ 0 <= snd pos /\
    reach (start inputFile (file_src (head ++ l2) ++ R))
          (between dn (split_lines R) lc (fst pos) (snd pos - 1) (Some file) (Some (S m)) (file_stmts (pos_after (inputFile, 1) head) l2)).
Proof.
  intros inputFile file flags l1 pre post l2 R (W & SF & ML) T. cbv zeta.
  inversion W as [|? ? W0 W']; subst. apply Forall_app in W' as [W1 W2]. inversion W2 as [|? ? WM WL]; subst. apply Forall_app in T as [T1 T2].
  set (g0 := GDir 1 file flags) in *. set (S2 := split_lines (file_src l2) ++ split_lines R).
  assert (SL : split_lines (file_src ((g0 :: l1 ++ [GMark pre post]) ++ l2) ++ R) = group_src g0 :: split_lines (file_src l1) ++ group_src (GMark pre post) :: S2).
  { rewrite file_split, file_src_app. change (file_src (g0 :: l1 ++ [GMark pre post])) with (group_src g0 ++ file_src (l1 ++ [GMark pre post])). rewrite file_src_app.
    change (file_src [GMark pre post]) with (group_src (GMark pre post) ++ []). rewrite app_nil_r, <- !app_assoc. rewrite group_split. unfold g0. rewrite dir_line by auto. rewrite file_split, group_split, mark_line_ by auto.
    unfold S2. repeat (rewrite <- ?app_assoc; cbn [app]). reflexivity. }
  pose proof (dir_run 1 file flags [] (split_lines (file_src l1) ++ group_src (GMark pre post) :: S2) 0 inputFile 0 None None [] W0) as R0.
  destruct (groups_run l1 (file, 1) [group_src g0] (group_src (GMark pre post) :: S2) 0 file None [] W1 T1 (free_markless _ SF)) as (lc1 & ls1 & LC1 & E1 & R1);
    [unfold pos_ok; cbn; lia|reflexivity|now left|].
  assert (G : forall l pos, Forall group_wf l -> pos_ok pos -> pos_ok (pos_after pos l)).
  { unfold pos_after. induction l as [|g l IH]; intros pos WW PP; [exact PP|]. inversion WW; subst. cbn [fold_left]. apply IH; auto. now apply next_ok. }
  pose proof (G l1 (file, 1) W1 ltac:(unfold pos_ok; cbn; lia)) as G1.
  pose proof (mark_run pre post ([group_src g0] ++ ls1) S2 lc1 (fst (pos_after (file, 1) l1)) (snd (pos_after (file, 1) l1) - 1) (Some file) None ([] ++ file_stmts (file, 1) l1) WM) as R2.
  assert (FS : file_stmts (file, 1) l1 = []) by (now destruct (free_out l1 (file, 1) SF)). rewrite FS in *. cbn [app] in R1, R2.
  set (pos1 := pos_after (inputFile, 1) (g0 :: l1 ++ [GMark pre post])).
  assert (EP : pos1 = (fst (pos_after (file, 1) l1), snd (pos_after (file, 1) l1) + 1)).
  { unfold pos1, pos_after. cbn [fold_left]. rewrite fold_left_app. cbn [fold_left next_pos g0]. change (fold_left next_pos l1 (next_pos (inputFile, 1) g0)) with (fold_left next_pos l1 (file, 1)).
    f_equal. f_equal. destruct WM as (N1 & N2 & _). cbn [group_src]. rewrite !nls_app, (proj2 (nls_none pre) N1), (proj2 (nls_none post) N2). reflexivity. }
  assert (PO : pos_ok pos1) by (rewrite EP; unfold pos_ok in *; cbn [snd]; lia).
  destruct (groups_run l2 pos1 (([group_src g0] ++ ls1) ++ [group_src (GMark pre post)]) (split_lines R) lc1 file (Some (length ([group_src g0] ++ ls1))) [] WL T2 ML PO LC1) as (lc2 & ls2 & LC2 & E2 & R3).
  { right. exists (length ls1). reflexivity. }
  assert (EQ : pos_after (inputFile, 1) ((g0 :: l1 ++ [GMark pre post]) ++ l2) = pos_after pos1 l2) by (unfold pos1, pos_after; now rewrite fold_left_app).
  rewrite EQ. exists ((([group_src g0] ++ ls1) ++ [group_src (GMark pre post)]) ++ ls2), lc2, (length ls1). splits; auto.
  - pose proof (G l2 pos1 WL PO) as K. exact K.
  - unfold start. rewrite SL. eapply reach_trans; [exact R0|]. eapply reach_trans; [exact R1|]. eapply reach_trans; [exact R2|].
    rewrite EP in R3 at 1 2. cbn [fst snd] in R3. replace (snd (pos_after (file, 1) l1) + 1 - 1) with (snd (pos_after (file, 1) l1) - 1 + 1) in R3 by lia. exact R3.
Qed.

Theorem C58_partial : forall inputFile file flags l1 pre post l2 p b rest,
  bad_file inputFile file flags l1 pre post l2 p b rest -> Forall tame_group (l1 ++ l2) -> tame_before p -> tame_bad b ->
  C58_for inputFile file flags l1 pre post l2 p b rest.
Proof.
  intros inputFile file flags l1 pre post l2 p b rest (FW & BW & BB & HH & HM) TG TB T. unfold C58_for.
  set (R := toks_src p ++ log_function ++ bad_src b ++ rest) in *.
  destruct (file_reach inputFile file flags l1 pre post l2 R FW TG) as (dn & lc & m & LC & PN & RR). cbv zeta in *.
  set (pos := pos_after (inputFile, 1) ((GDir 1 file flags :: l1 ++ [GMark pre post]) ++ l2)) in *.
  set (st := file_stmts (pos_after (inputFile, 1) (GDir 1 file flags :: l1 ++ [GMark pre post])) l2) in *.
  assert (NE : bad_src b ++ rest <> []).
  { intro E. destruct (bad_opens st pos b rest BB) as (r & O). rewrite E in O. discriminate O. }
  pose proof BW as (_ & NP & _). apply nls_none in NP.
  assert (PX : ~ In 10 (toks_src p ++ name)) by (intro K; apply in_app_or in K as [K|K]; [auto|now apply name_no10 in K]).
  destruct (split_cons (toks_src p ++ name) (bad_src b ++ rest) NE PX) as (y & L & E1 & E2). rewrite <- !app_assoc in E2. change log_function with name in R. change (toks_src p ++ name ++ bad_src b ++ rest) with R in E2.
  assert (EY : y ++ concat L = bad_src b ++ rest) by (rewrite <- (split_concat (bad_src b ++ rest)), E1; reflexivity).
  rewrite E2 in RR.
  destruct (to_name p 0 y L dn lc (fst pos) (snd pos - 1) (Some file) (Some (S m)) st BW TB LC) as (lc' & LC' & R1).
  { cbn [spaces repeat app]. rewrite app_assoc. change log_function with name in HH. destruct (toks_src p ++ name) eqn:E; [apply app_eq_nil in E as [_ E]; discriminate E|exact HH]. }
  { cbn [spaces repeat app]. rewrite <- (split_concat R), E2 in HM. cbn [concat] in HM. apply within_app_l in HM. exact HM. }
  cbn [spaces repeat app] in R1. replace (snd pos - 1 + 1) with (snd pos) in R1 by lia.
  assert (F := name_fails (toks_src p) y L dn lc lc' (fst pos) (snd pos) (Some file) (Some (S m)) st LC').
  rewrite EY in F. specialize (F (bad_opens st pos b rest BB)).
  assert (F' : step (at_ (between dn ((toks_src p ++ name ++ y) :: L) lc (fst pos) (snd pos) (Some file) (Some (S m)) st) (toks_src p ++ name ++ y) (length (toks_src p)) false false lc') = Fail).
  { apply F. intros level fmt others after f0 f1 P X _. eapply bad_parse; eauto. }
  destruct (reach_trans _ _ _ RR R1) as (n & H). exists (n + 1)%nat. rewrite (steps_run n 1 _ _ H). cbn [steps]. now rewrite F'.
Qed.
Print Assumptions C58_partial.

(** A statement without NanoLog's header in front of it. *)
Theorem C58_header_partial : forall inputFile file flags l1 p k rest,
  Forall group_wf (GDir 1 file flags :: l1) -> Forall stmt_free l1 -> Forall tame_group l1 ->
  before_wf p -> tame_before p -> call_wf k -> tame_call k ->
  hd 0 (toks_src p ++ log_function) <> 35 -> within marker_line (toks_src p ++ log_function ++ k_src k ++ rest) = false ->
  fails inputFile (file_src (GDir 1 file flags :: l1) ++ toks_src p ++ log_function ++ k_src k ++ rest).
Proof.
  intros inputFile file flags l1 p k rest W SF T BW TB CW TC_ HH HM. inversion W as [|? ? W0 W1]; subst.
  set (g0 := GDir 1 file flags) in *. change log_function with name in *. set (R := toks_src p ++ name ++ k_src k ++ rest) in *.
  assert (OP : exists r, skip_space (k_src k ++ rest) = 40 :: r).
  { destruct CW as (S1 & _). rewrite removelast_src. destruct (open_src k) as (r & -> & _). rewrite <- !app_assoc. cbn [app]. rewrite skip_spaces by auto. eauto. }
  assert (NE : k_src k ++ rest <> []) by (intro E; destruct OP as (r & O); rewrite E in O; discriminate O).
  pose proof BW as (_ & NP & _). apply nls_none in NP.
  assert (PX : ~ In 10 (toks_src p ++ name)) by (intro K; apply in_app_or in K as [K|K]; [auto|now apply name_no10 in K]).
  destruct (split_cons (toks_src p ++ name) (k_src k ++ rest) NE PX) as (y & L & E1 & E2). rewrite <- !app_assoc in E2. change (toks_src p ++ name ++ k_src k ++ rest) with R in E2.
  assert (EY : y ++ concat L = k_src k ++ rest) by (rewrite <- (split_concat (k_src k ++ rest)), E1; reflexivity).
  assert (SL : split_lines (file_src (g0 :: l1) ++ R) = group_src g0 :: split_lines (file_src l1) ++ split_lines R).
  { rewrite file_split. change (file_src (g0 :: l1)) with (group_src g0 ++ file_src l1). rewrite group_split. unfold g0. rewrite dir_line by auto. reflexivity. }
  pose proof (dir_run 1 file flags [] (split_lines (file_src l1) ++ split_lines R) 0 inputFile 0 None None [] W0) as R0.
  destruct (groups_run l1 (file, 1) [group_src g0] (split_lines R) 0 file None [] W1 T (free_markless _ SF)) as (lc1 & ls1 & LC1 & _ & R1);
    [unfold pos_ok; cbn; lia|reflexivity|now left|].
  set (pos := pos_after (file, 1) l1) in *. set (st := [] ++ file_stmts (file, 1) l1) in *. set (dn := [group_src g0] ++ ls1) in *.
  rewrite E2 in *.
  destruct (to_name p 0 y L dn lc1 (fst pos) (snd pos - 1) (Some file) None st BW TB LC1) as (lc' & LC' & R2).
  { cbn [spaces repeat app]. rewrite app_assoc. destruct (toks_src p ++ name) eqn:E; [apply app_eq_nil in E as [_ E]; discriminate E|exact HH]. }
  { cbn [spaces repeat app]. rewrite <- (split_concat R), E2 in HM. cbn [concat] in HM. apply within_app_l in HM. exact HM. }
  cbn [spaces repeat app] in R2.
  assert (F := name_fails (toks_src p) y L dn lc1 lc' (fst pos) (snd pos - 1 + 1) (Some file) None st LC').
  rewrite EY in F. specialize (F OP).
  assert (RR : reach (start inputFile (file_src (g0 :: l1) ++ R)) (at_ (between dn ((toks_src p ++ name ++ y) :: L) lc1 (fst pos) (snd pos - 1 + 1) (Some file) None st) (toks_src p ++ name ++ y) (length (toks_src p)) false false lc')).
  { unfold start. rewrite SL. eapply reach_trans; [exact R0|]. eapply reach_trans; [exact R1|]. exact R2. }
  destruct RR as (n & H). exists (n + 1)%nat. rewrite (steps_run n 1 _ _ H). cbn [steps]. rewrite F; [reflexivity|]. intros ? ? ? ? ? ? _ _ (m & K). discriminate K.
Qed.
Print Assumptions C58_header_partial.

(** ** A counterexample, and examples *)

Lemma steps_fail_more : forall n m c, steps n c = Fail -> steps (n + m) c = Fail.
Proof. induction n as [|n IH]; intros m c H; cbn [steps Nat.add] in *; [discriminate H|]. destruct (step c); auto; discriminate H. Qed.

(** An assignment of a quote in a character literal, then [NANO_LOG(NOTICE, x);] on
    a line: the quote hides the call. *)
Definition var_call : call := Call [] (text "NOTICE") (text " x") [] [].
Lemma var_call_wf : call_wf var_call.
Proof. unfold call_wf, no_stmt. splits; try reflexivity; repeat constructor. Qed.
Lemma head_wf : file_wf file52 [] [] [] [] [].
Proof.
  unfold file_wf. splits; constructor.
  - cbn [group_wf]. unfold file_name_wf. splits; try lia; cbn; lia.
  - constructor; [|constructor]. cbn [group_wf]. splits; try (cbn; lia); discriminate.
Qed.

Definition hidden58 : list tok := text "c = " ++ TChr [Ch 34] :: text "; ".
Theorem C58_refuted : ~ C58_full.
Proof.
  intro H. destruct (H (chars "in") file52 [] [] [] [] [] hidden58 (NoFormat var_call) [10]) as (n & F).
  - unfold bad_file. cbv zeta. split; [apply head_wf|]. split; [unfold before_wf, no_stmt; splits; reflexivity|]. split; [|split; [discriminate|reflexivity]].
    split; [apply var_call_wf|]. left. reflexivity.
  - set (src := file_src _ ++ _) in F.
    assert (K : exists c', steps 200 (start (chars "in") src) = Done c') by (eexists; vm_compute; reflexivity).
    destruct K as (c' & K). apply (steps_fail_more n 200) in F. apply (steps_more 200 n) in K. rewrite Nat.add_comm in K. congruence.
Qed.
Print Assumptions C58_refuted.

(** [x = NANO_LOG(NOTICE, "Hi") + 1], [NANO_LOG(NOTICE);], [NANO_LOG(NOTICE, x);],
    [NANO_LOG(NOTICE, "");] and [NANO_LOG(NOTICE, "%n");]. *)
Definition fmt_call (f : list celem) : call := Call [] (text "NOTICE") [TC 32; TStr f] [] [].
Definition bad_calls : list bad_call :=
  [NoSemicolon (Call [] (text "NOTICE") [TC 32; TStr [Ch 72; Ch 105]] [] [32]) 43; OneArgument [] (text "NOTICE") []; NoFormat var_call;
   NoFormat (fmt_call []); NoFormat (fmt_call [Ch 37; Ch 110])].
Example C58_instance : Forall (fun b => bad_file (chars "in") file52 [] [] [] [] [] (text "x = ") b [10] /\ tame_before (text "x = ") /\ tame_bad b) bad_calls /\
  map (fun b => bad_src b) bad_calls = map chars ["(NOTICE, ""Hi"") +"; "(NOTICE);"; "(NOTICE, x);"; "(NOTICE, """");"; "(NOTICE, ""%n"");"]%string.
Proof.
  split; [|reflexivity].
  assert (B : forall b, bad_wf [] (file52, 2) b -> tame_bad b -> within marker_line (toks_src (text "x = ") ++ log_function ++ bad_src b ++ [10]) = false ->
    bad_file (chars "in") file52 [] [] [] [] [] (text "x = ") b [10] /\ tame_before (text "x = ") /\ tame_bad b).
  { intros b W T M. split; [|split; [split; reflexivity|exact T]]. unfold bad_file. cbv zeta. split; [apply head_wf|]. split; [unfold before_wf, no_stmt; splits; reflexivity|].
    split; [exact W|split; [discriminate|exact M]]. }
  assert (N : forall s, forallb (fun c => negb (mem_char c syntax)) s = true -> nested false (map TC s)).
  { induction s as [|c s IH]; intro H; [constructor|]. cbn [forallb map] in *. apply andb_true_iff in H as [H1 H2]. constructor; auto. cbn [simple]. now apply negb_true_iff. }
  repeat (apply Forall_cons; [apply B; [|repeat split; try reflexivity; repeat constructor|reflexivity]|]); [..|constructor].
  - split; [|split; [reflexivity|lia]]. unfold call_wf, no_stmt. splits; try reflexivity; repeat constructor.
  - splits; try reflexivity. repeat constructor.
  - split; [apply var_call_wf|]. left. reflexivity.
  - split; [unfold call_wf, no_stmt; splits; try reflexivity; repeat constructor|]. right. left. reflexivity.
  - split; [unfold call_wf, no_stmt; splits; try reflexivity; repeat constructor|]. right. right. split; [vm_compute; reflexivity|split; [repeat constructor; lia|constructor]].
Qed.
