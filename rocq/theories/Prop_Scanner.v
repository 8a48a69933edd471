(** C52: the preprocessor finds every log statement, with its file and line, and
    replaces it by a call of the generated function. *)
From Coq Require Import String.
From Verif Require Import Base BaseProofs Chars Fmt FmtProofs Regex MicroCode MicroCodeProofs RingProofs DecodeProofs Preproc PreprocProofs PreprocLit Parser Prop_Parser Scanner SourceSpec ScanProofs StmtProofs.
Local Open Scope list_scope.
Ltac Zify.zify_post_hook ::= Z.div_mod_to_equations.

(** The position behind some groups. *)
Definition pos_after (pos : list Z * Z) (l : list group) : list Z * Z := fold_left next_pos l pos.

(** processFile ends; the statements and the text it writes. *)
Definition processes (inputFile src : list Z) (stmts : list stmt) (out : list Z -> list Z) : Prop :=
  exists n c, steps n (start inputFile src) = Done c /\ c_stmts c = stmts /\ forall code, written code c = out code.

(** C52 as claimed. *)
Definition C52_for (inputFile file flags : list Z) (l1 : list group) (pre post : list Z) (l2 : list group) : Prop :=
  let head := GDir 1 file flags :: l1 ++ [GMark pre post] in
  let pos := pos_after (inputFile, 1) head in
  processes inputFile (file_src (head ++ l2)) (file_stmts pos l2)
    (fun code => file_src head ++ match file_stmts pos l2 with [] => [] | _ => code end ++ file_out pos l2).
Definition C52_full : Prop := forall inputFile file flags l1 pre post l2,
  file_wf file flags l1 pre post l2 -> C52_for inputFile file flags l1 pre post l2.

(** ** Proofs *)

Definition tame_group (g : group) : Prop :=
  match g with
  | GCode parts rest => Forall (fun x => tame_before (fst x) /\ tame_call (snd x)) parts /\ tame_rest rest
  | _ => True
  end.

Lemma hd_app : forall (a b : list Z), a <> [] -> hd 0 (a ++ b) = hd 0 a.
Proof. intros [|x a] b H; [congruence|reflexivity]. Qed.

Lemma dir_run : forall n f fl dn R lc f' m fi mk st, group_wf (GDir n f fl) ->
  reach (between dn (group_src (GDir n f fl) :: R) lc f' m fi mk st)
        (between (dn ++ [group_src (GDir n f fl)]) R lc f (n - 1) (Some (match fi with Some x => x | None => f end)) mk st).
Proof.
  intros n f fl dn R lc f' m fi mk st (Hn & [F1 F2] & G1 & G2). apply reach_step. unfold step, between, next_line.
  cbn [c_in c_lines c_line c_done c_file c_first c_mark c_stmts c_last]. cbv zeta. cbn [group_src].
  replace (quoted f ++ fl ++ [10]) with (quoted f ++ (fl ++ [10])) by reflexivity.
  rewrite directive_eq; auto; [|intro K; apply in_app_or in K as [K|[K|[]]]; [auto|discriminate K]]. destruct fi; reflexivity.
Qed.

Lemma mark_run : forall pre post dn R lc f m fi mk st, group_wf (GMark pre post) ->
  reach (between dn (group_src (GMark pre post) :: R) lc f m fi mk st)
        (between (dn ++ [group_src (GMark pre post)]) R lc f (m + 1) fi (Some (length dn)) st).
Proof.
  intros pre post dn R lc f m fi mk st (N1 & N2 & H). apply reach_step. unfold step, between, next_line.
  cbn [c_in c_lines c_line c_done c_file c_first c_mark c_stmts c_last]. cbv zeta. cbn [group_src].
  rewrite not_directive.
  - change marker_text with marker_line. rewrite occurs_within, within_here. reflexivity.
  - rewrite app_assoc, hd_app; auto. intro E. apply app_eq_nil in E as [_ E]. discriminate E.
Qed.

(** A group ends with its line. *)
Lemma group_nl : forall g, exists s, group_src g = s ++ [10].
Proof.
  intros [n f fl|pre post|parts rest]; cbn [group_src].
  - exists (chars "# " ++ dec_str n ++ [32] ++ quoted f ++ fl). now rewrite <- !app_assoc.
  - exists (pre ++ marker_line ++ post). now rewrite <- !app_assoc.
  - apply code_nl.
Qed.
Lemma group_split : forall g t, split_lines (group_src g ++ t) = split_lines (group_src g) ++ split_lines t.
Proof. intros g t. destruct (group_nl g) as (s & ->). rewrite <- app_assoc. apply split_app. Qed.

Lemma dec_no : forall n c, 0 <= n -> ~ 48 <= c <= 57 -> ~ In c (dec_str n).
Proof. intros n c Hn H K. destruct (dec_str_spec n Hn) as (_ & D & _). rewrite Forall_forall in D. apply D in K. unfold is_digit in K. lia. Qed.

Lemma dir_line : forall n f fl, group_wf (GDir n f fl) -> split_lines (group_src (GDir n f fl)) = [group_src (GDir n f fl)].
Proof.
  intros n f fl (Hn & [F1 F2] & G1 & G2). cbn [group_src].
  replace (chars "# " ++ dec_str n ++ [32] ++ quoted f ++ fl ++ [10]) with ((chars "# " ++ dec_str n ++ [32] ++ quoted f ++ fl) ++ [10]) by (rewrite <- !app_assoc; reflexivity).
  rewrite split_line; [reflexivity|]. unfold quoted. intro K. repeat (apply in_app_or in K as [K|K]); auto.
  - cbn in K. lia.
  - apply dec_no in K; auto. lia.
  - cbn in K. lia.
  - destruct K as [K|K]; [discriminate K|]. apply in_app_or in K as [K|[K|[]]]; [auto|discriminate K].
Qed.
Lemma mark_line_ : forall pre post, group_wf (GMark pre post) -> split_lines (group_src (GMark pre post)) = [group_src (GMark pre post)].
Proof.
  intros pre post (N1 & N2 & H). cbn [group_src]. replace (pre ++ marker_line ++ post ++ [10]) with ((pre ++ marker_line ++ post) ++ [10]) by (rewrite <- !app_assoc; reflexivity).
  rewrite split_line; [reflexivity|]. intro K. repeat (apply in_app_or in K as [K|K]); auto.
  vm_compute in K. repeat (destruct K as [K|K]; [discriminate K|]). exact K.
Qed.

Definition pos_ok (pos : list Z * Z) : Prop := 0 <= snd pos.

Lemma nls_nonneg : forall s, 0 <= nls s.
Proof. intro s. unfold nls, zlen. lia. Qed.
Lemma next_ok : forall pos g, pos_ok pos -> group_wf g -> pos_ok (next_pos pos g).
Proof.
  intros [f n] g H W. unfold pos_ok in *. destruct g as [k fi fl|a b|ps r]; cbn [next_pos snd] in *; [now destruct W| |];
  match goal with |- context [nls ?s] => pose proof (nls_nonneg s) end; lia.
Qed.

Definition stmts_of (pos : list Z * Z) (g : group) : list stmt := match g with GCode parts _ => code_stmts (fst pos) (snd pos) parts | _ => [] end.

Lemma group_run : forall g pos dn R lc f0 mk st,
  group_wf g -> tame_group g -> markless g -> pos_ok pos -> ident_char lc = false ->
  stmt_free g \/ (exists m, mk = Some (S m)) ->
  exists lc' ls, ident_char lc' = false /\ concat ls = group_out pos g /\
    reach (between dn (split_lines (group_src g) ++ R) lc (fst pos) (snd pos - 1) (Some f0) mk st)
          (between (dn ++ ls) R lc' (fst (next_pos pos g)) (snd (next_pos pos g) - 1) (Some f0) mk (st ++ stmts_of pos g)).
Proof.
  intros g [f n] dn R lc f0 mk st W T ML P LC SF. unfold pos_ok in P. cbn [fst snd] in *. destruct g as [k fi fl|a b|ps r]; cbn [next_pos stmts_of group_out fst snd].
  - exists lc, [group_src (GDir k fi fl)]. rewrite dir_line by auto. splits; auto; [cbn [concat]; now rewrite app_nil_r|]. rewrite app_nil_r. now apply (dir_run k fi fl dn R lc f (n - 1) (Some f0) mk st).
  - destruct ML.
  - destruct W as (W1 & W2 & W3 & W4 & W5). destruct T as (T1 & T2). destruct ps as [|x ps].
    + destruct W2 as [LX W2]. destruct T2 as [TU TW]. apply nls_none in W3. cbn [group_src code_src code_out code_stmts] in *. rewrite split_line by auto. rewrite app_nil_r.
      destruct (line_run r dn R lc f (n - 1) (Some f0) mk st 0) as (lc' & L & RR); auto.
      { cbn [within begins] in W4. cbn [spaces repeat app]. destruct (toks_src r ++ [10]) as [|h t]; [discriminate|]. cbn [hd]. intros ->. discriminate W4. }
      { now apply within_app_l in W5. }
      exists lc', [toks_src r ++ [10]]. splits; auto; [cbn [concat]; now rewrite app_nil_r|].
      rewrite nls_app, (proj2 (nls_none _) W3). replace (n + (0 + nls [10]) - 1) with (n - 1 + 1) by (change (nls [10]) with 1; lia). exact RR.
    + destruct SF as [[]|[m ->]].
      destruct (code_run (x :: ps) r 0 dn R lc f n f0 m st) as (lc' & ls & L & E & RR); auto.
      { rewrite Forall_forall in *. intros y Hy. specialize (W1 y Hy). specialize (T1 y Hy). destruct y as [pre k]. unfold part_ok. cbn [fst snd] in *. tauto. }
      exists lc', ls. splits; auto. cbn [spaces repeat app] in RR. cbn [group_src]. replace (n + nls (code_src (x :: ps) r) - 1) with (n - 1 + nls (code_src (x :: ps) r)) by lia. exact RR.
Qed.

Lemma file_stmts_cons : forall pos g l, file_stmts pos (g :: l) = stmts_of pos g ++ file_stmts (next_pos pos g) l.
Proof. reflexivity. Qed.

Lemma groups_run : forall l pos dn R lc f0 mk st,
  Forall group_wf l -> Forall tame_group l -> Forall markless l -> pos_ok pos -> ident_char lc = false ->
  Forall stmt_free l \/ (exists m, mk = Some (S m)) ->
  exists lc' ls, ident_char lc' = false /\ concat ls = file_out pos l /\
    reach (between dn (split_lines (file_src l) ++ R) lc (fst pos) (snd pos - 1) (Some f0) mk st)
          (between (dn ++ ls) R lc' (fst (pos_after pos l)) (snd (pos_after pos l) - 1) (Some f0) mk (st ++ file_stmts pos l)).
Proof.
  induction l as [|g l IH]; intros pos dn R lc f0 mk st W T ML P LC SF.
  - exists lc, []. cbn [file_src flat_map split_lines app file_stmts pos_after fold_left]. rewrite !app_nil_r. splits; auto. apply reach_refl.
  - inversion W as [|? ? W1 W']; inversion T as [|? ? T1 T']; inversion ML as [|? ? M1 M']; subst.
    assert (S1 : stmt_free g \/ (exists m, mk = Some (S m))) by (destruct SF as [SF|SF]; [left; now inversion SF|now right]).
    assert (S2 : Forall stmt_free l \/ (exists m, mk = Some (S m))) by (destruct SF as [SF|SF]; [left; now inversion SF|now right]).
    destruct (group_run g pos dn (split_lines (file_src l) ++ R) lc f0 mk st W1 T1 M1 P LC S1) as (l1 & ls1 & L1 & E1 & R1).
    destruct (IH (next_pos pos g) (dn ++ ls1) R l1 f0 mk (st ++ stmts_of pos g) W' T' M' (next_ok pos g P W1) L1 S2) as (l2 & ls2 & L2 & E2 & R2).
    exists l2, (ls1 ++ ls2). splits; auto.
    + rewrite concat_app, E1, E2. reflexivity.
    + change (file_src (g :: l)) with (group_src g ++ file_src l). rewrite file_stmts_cons, (app_assoc st), (app_assoc dn), group_split, <- (app_assoc (split_lines _)).
      eapply reach_trans; [exact R1|]. exact R2.
Qed.

(** Before the marker nothing is changed. *)
Lemma free_out : forall l pos, Forall stmt_free l -> file_out pos l = file_src l /\ file_stmts pos l = [].
Proof.
  induction l as [|g l IH]; intros pos H; [split; reflexivity|]. inversion H as [|? ? H1 H2]; subst. cbn [file_out file_stmts]. destruct (IH (next_pos pos g) H2) as [-> ->].
  change (file_src (g :: l)) with (group_src g ++ file_src l). destruct g as [n f fl|a b|[|x ps] r]; try contradiction; split; reflexivity.
Qed.
Lemma free_markless : forall l, Forall stmt_free l -> Forall markless l.
Proof. intros l H. eapply Forall_impl; [|exact H]. intros [n f fl|a b|ps r] K; cbn in *; auto. Qed.

Lemma file_src_app : forall a b, file_src (a ++ b) = file_src a ++ file_src b.
Proof. intros a b. unfold file_src. apply flat_map_app. Qed.
Lemma file_split : forall l t, split_lines (file_src l ++ t) = split_lines (file_src l) ++ split_lines t.
Proof.
  induction l as [|g l IH]; intro t; [reflexivity|]. change (file_src (g :: l)) with (group_src g ++ file_src l). rewrite <- app_assoc, !group_split, IH. apply app_assoc.
Qed.

Lemma steps_more : forall n m c x, steps n c = Done x -> steps (n + m) c = Done x.
Proof. induction n as [|n IH]; intros m c x H; cbn [steps Nat.add] in *; [discriminate H|]. destruct (step c); auto; discriminate H. Qed.
Lemma steps_det : forall n m c x y, steps n c = Done x -> steps m c = Done y -> x = y.
Proof.
  intros n m c x y H K. apply (steps_more n m) in H. apply (steps_more m n) in K. rewrite Nat.add_comm in K. congruence.
Qed.

(** C52 for files where no character literal is a quote, the name occurs in code
    only as the name of statements, and the statements are those of C51. *)
Theorem C52_partial : forall inputFile file flags l1 pre post l2,
  file_wf file flags l1 pre post l2 -> Forall tame_group (l1 ++ l2) -> C52_for inputFile file flags l1 pre post l2.
Proof.
  intros inputFile file flags l1 pre post l2 (W & SF & ML) T. unfold C52_for. cbv zeta.
  inversion W as [|? ? W0 W']; subst. apply Forall_app in W' as [W1 W2]. inversion W2 as [|? ? WM WL]; subst. apply Forall_app in T as [T1 T2].
  set (g0 := GDir 1 file flags) in *.
  assert (ES : file_src ((g0 :: l1 ++ [GMark pre post]) ++ l2) = group_src g0 ++ file_src l1 ++ group_src (GMark pre post) ++ file_src l2).
  { rewrite file_src_app. change (file_src (g0 :: l1 ++ [GMark pre post])) with (group_src g0 ++ file_src (l1 ++ [GMark pre post])). rewrite file_src_app.
    change (file_src [GMark pre post]) with (group_src (GMark pre post) ++ []). rewrite app_nil_r, <- !app_assoc. reflexivity. }
  assert (SL : split_lines (file_src ((g0 :: l1 ++ [GMark pre post]) ++ l2)) = group_src g0 :: split_lines (file_src l1) ++ group_src (GMark pre post) :: split_lines (file_src l2)).
  { rewrite ES, group_split. unfold g0. rewrite dir_line by auto. rewrite file_split, group_split, mark_line_ by auto. reflexivity. }
  pose proof (dir_run 1 file flags [] (split_lines (file_src l1) ++ group_src (GMark pre post) :: split_lines (file_src l2)) 0 inputFile 0 None None [] W0) as R0.
  destruct (groups_run l1 (file, 1) [group_src g0] (group_src (GMark pre post) :: split_lines (file_src l2)) 0 file None [] W1 T1 (free_markless _ SF)) as (lc1 & ls1 & LC1 & E1 & R1);
    [unfold pos_ok; cbn; lia|reflexivity|now left|].
  pose proof (mark_run pre post ([group_src g0] ++ ls1) (split_lines (file_src l2)) lc1 (fst (pos_after (file, 1) l1)) (snd (pos_after (file, 1) l1) - 1) (Some file) None [] WM) as R2.
  destruct (free_out l1 (file, 1) SF) as [FO FS]. rewrite FS in R1. cbn [app] in R1.
  set (pos1 := pos_after (inputFile, 1) (g0 :: l1 ++ [GMark pre post])).
  assert (EP : pos1 = (fst (pos_after (file, 1) l1), snd (pos_after (file, 1) l1) + 1)).
  { unfold pos1, pos_after. cbn [fold_left]. rewrite fold_left_app. cbn [fold_left next_pos g0]. change (fold_left next_pos l1 (next_pos (inputFile, 1) g0)) with (fold_left next_pos l1 (file, 1)).
    f_equal. f_equal. destruct WM as (N1 & N2 & _). cbn [group_src]. rewrite !nls_app, (proj2 (nls_none pre) N1), (proj2 (nls_none post) N2). reflexivity. }
  assert (PO : pos_ok pos1).
  { assert (forall l pos, Forall group_wf l -> pos_ok pos -> pos_ok (pos_after pos l)) as G.
    { unfold pos_after. induction l as [|g l IH]; intros pos WW PP; [exact PP|]. inversion WW; subst. cbn [fold_left]. apply IH; auto. now apply next_ok. }
    rewrite EP. pose proof (G l1 (file, 1) W1 ltac:(unfold pos_ok; cbn; lia)) as GG. unfold pos_ok in *. cbn [snd]. lia. }
  destruct (groups_run l2 pos1 (([group_src g0] ++ ls1) ++ [group_src (GMark pre post)]) [] lc1 file (Some (length ([group_src g0] ++ ls1))) [] WL T2 ML PO LC1) as (lc2 & ls2 & LC2 & E2 & R3).
  { right. exists (length ls1). reflexivity. }
  rewrite app_nil_r in R3. cbn [app] in R0.
  assert (RR : reach (start inputFile (file_src ((g0 :: l1 ++ [GMark pre post]) ++ l2)))
     (between ((([group_src g0] ++ ls1) ++ [group_src (GMark pre post)]) ++ ls2) [] lc2 (fst (pos_after pos1 l2)) (snd (pos_after pos1 l2) - 1) (Some file) (Some (length ([group_src g0] ++ ls1)))
        (file_stmts pos1 l2))).
  { unfold start. rewrite SL. eapply reach_trans; [exact R0|]. eapply reach_trans; [exact R1|]. eapply reach_trans; [exact R2|].
    rewrite EP in R3 at 1 2. cbn [fst snd] in R3. replace (snd (pos_after (file, 1) l1) + 1 - 1) with (snd (pos_after (file, 1) l1) - 1 + 1) in R3 by lia. exact R3. }
  destruct RR as (n & RR). exists (n + 1)%nat. eexists. split; [rewrite (steps_run n 1 _ _ RR); reflexivity|]. split; [reflexivity|].
  intro code. unfold written, between. cbn [c_stmts c_mark c_done].
  assert (FI : firstn (S (length ([group_src g0] ++ ls1))) ((([group_src g0] ++ ls1) ++ [group_src (GMark pre post)]) ++ ls2) = ([group_src g0] ++ ls1) ++ [group_src (GMark pre post)]).
  { rewrite firstn_app, firstn_all2 by (rewrite !app_length; cbn [length]; lia). replace (S _ - _)%nat with O by (rewrite !app_length; cbn [length]; lia). apply app_nil_r. }
  assert (SI : skipn (S (length ([group_src g0] ++ ls1))) ((([group_src g0] ++ ls1) ++ [group_src (GMark pre post)]) ++ ls2) = ls2).
  { rewrite skipn_app, skipn_all2 by (rewrite !app_length; cbn [length]; lia). replace (S _ - _)%nat with O by (rewrite !app_length; cbn [length]; lia). reflexivity. }
  assert (EH : concat (([group_src g0] ++ ls1) ++ [group_src (GMark pre post)]) = file_src (g0 :: l1 ++ [GMark pre post])).
  { change (file_src (g0 :: l1 ++ [GMark pre post])) with (group_src g0 ++ file_src (l1 ++ [GMark pre post])). rewrite file_src_app, !concat_app, E1, FO.
    cbn [concat app]. change (file_src [GMark pre post]) with (group_src (GMark pre post) ++ []). rewrite !app_nil_r, <- app_assoc. reflexivity. }
  fold pos1. destruct (file_stmts pos1 l2) as [|s0 sl].
  - rewrite concat_app, EH, E2. reflexivity.
  - rewrite FI, SI, EH, E2. reflexivity.
Qed.
Print Assumptions C52_partial.

(** ** Counterexamples *)

Definition text_call : call := Call [] (text "NOTICE") [TC 32; TStr [Ch 72; Ch 105]] [] [].
Definition file52 : list Z := chars "a.cc".
Definition only (g : group) (f : list Z) : Prop :=
  C52_for (chars "in") f [] [] [] [] [g].

Lemma text_call_wf : call_wf text_call.
Proof. unfold call_wf, no_stmt. splits; try reflexivity; repeat constructor. Qed.
Lemma text_fmt_wf : fmt_wf text_call.
Proof. unfold fmt_wf. splits; [reflexivity|discriminate|vm_compute; discriminate]. Qed.
Lemma file52_wf : forall g, group_wf g -> markless g -> file_wf file52 [] [] [] [] [g].
Proof.
  intros g W M. unfold file_wf. splits; [|constructor|auto]. constructor; [|constructor; [|auto]].
  - cbn [group_wf]. unfold file_name_wf. splits; try lia; cbn; lia.
  - cbn [group_wf]. splits; try (cbn; lia); discriminate.
Qed.

(** An assignment of a quote in a character literal, then NANO_LOG(NOTICE, "Hi"):
    the quote hides the statement. *)
Definition quote52 : group := GCode [(text "c = " ++ TChr [Ch 34] :: text "; ", text_call)] [].
Theorem C52_refuted_quote : ~ C52_full.
Proof.
  intro H. destruct (H (chars "in") file52 [] [] [] [] [quote52]) as (n & c & S & E & _).
  - apply file52_wf; [|exact I]. split; [constructor; [|constructor]|].
    + split; [|split; [apply text_call_wf|apply text_fmt_wf]]. unfold before_wf, no_stmt. splits; reflexivity.
    + unfold no_stmt. splits; reflexivity.
  - assert (K : exists c', steps 200 (start (chars "in") (file_src ((GDir 1 file52 [] :: [] ++ [GMark [] []]) ++ [quote52]))) = Done c' /\ c_stmts c' = []).
    { eexists. split; [vm_compute; reflexivity|reflexivity]. }
    destruct K as (c' & K & E'). rewrite (steps_det _ _ _ _ _ S K), E' in E. discriminate E.
Qed.
Print Assumptions C52_refuted_quote.

(** [NNANO_LOG(NOTICE, "Hi");]: a call of another function is taken for a log
    statement, since lastChar is not set for the first N. *)
Definition other52 : group := GCode [] (TC 78 :: map TC name ++ all_toks text_call ++ [TC 59]).
Theorem C52_refuted_name : ~ C52_full.
Proof.
  intro H. destruct (H (chars "in") file52 [] [] [] [] [other52]) as (n & c & S & E & _).
  - apply file52_wf; [|exact I]. split; [constructor|]. unfold no_stmt. splits; reflexivity.
  - assert (K : exists c', steps 200 (start (chars "in") (file_src ((GDir 1 file52 [] :: [] ++ [GMark [] []]) ++ [other52]))) = Done c' /\ c_stmts c' <> []).
    { eexists. split; [vm_compute; reflexivity|discriminate]. }
    destruct K as (c' & K & E'). rewrite (steps_det _ _ _ _ _ S K) in E. apply E'. rewrite E. reflexivity.
Qed.
Print Assumptions C52_refuted_name.

(** A statement in an argument of another one on the same line is not found: the
    offset in the line is looked up in the line as changed by the first one.
    [NANO_LOG(A, "a", []{ NANO_LOG(B, "b"); return 1; }());] *)
Example C52_nested :
  let src := chars "# 1 " ++ quoted (chars "a.cc") ++ [10] ++ marker_text ++ [10] ++
             chars "NANO_LOG(A, " ++ quoted (chars "a%d") ++ chars ", []{ NANO_LOG(B, " ++ quoted (chars "b") ++ chars "); return 1; }());" ++ [10] in
  exists c, steps 300 (start (chars "in") src) = Done c /\ map st_level (c_stmts c) = [chars "A"].
Proof. eexists. split; vm_compute; reflexivity. Qed.

(** Two statements on a line, the second over two lines, in a header. *)
Definition more52 : call := Call [32] (text "WARNING") [TStr [Ch 37; Ch 100; Esc 110]] [TC 10 :: text " f" ++ [TOpen Paren; TComma; TClose Paren]; text " 1"] [].
Definition groups52 : list group :=
  [GDir 7 (chars "b.h") (chars " 1 3");
   GCode [(text "if " ++ TOpen Paren :: text "x" ++ TClose Paren :: [TC 32], text_call); (text " else ", more52)] (text " y = " ++ TStr (map Ch (chars "NANO_LOG(")) :: text ";");
   GCode [] (text "z++;");
   GCode [([], text_call)] (text " // ")].
Example C52_instance : file_wf file52 (chars " 2") [GCode [] (text "int x;")] [32] [] groups52 /\
  Forall tame_group ([GCode [] (text "int x;")] ++ groups52) /\
  map (fun s => (st_level s, st_line s)) (file_stmts (file52, 4) groups52) = [(chars "NOTICE", 7); (chars "WARNING", 7); (chars "NOTICE", 10)].
Proof.
  assert (CW : call_wf more52).
  { unfold call_wf, no_stmt. splits; try reflexivity; [repeat constructor|repeat constructor|]. apply Forall_cons; [|repeat constructor]. repeat (apply ne_tok; [reflexivity|]).
    apply (ne_group false Paren [TComma] []); [apply ne_comma; constructor|constructor]. }
  assert (FW : fmt_wf more52) by (unfold fmt_wf; splits; [reflexivity|discriminate|vm_compute; discriminate]).
  assert (BW : forall l, forallb lexed l = true -> uses log_function 0 (flat_map bare_src l) = false -> nls (toks_src l) = 0 -> ident_char (last (toks_src l) 0) = false -> before_wf l)
    by (intros; unfold before_wf, no_stmt; splits; auto).
  unfold file_wf. splits.
  - apply Forall_cons; [|apply Forall_cons; [|apply Forall_cons; [|apply Forall_cons; [|apply Forall_cons; [|apply Forall_cons; [|apply Forall_cons; [|constructor]]]]]]].
    + cbn [group_wf]. unfold file_name_wf. splits; try lia; cbn; lia.
    + cbn [group_wf]. unfold no_stmt. splits; try reflexivity. constructor.
    + cbn [group_wf]. splits; try (cbn; lia); discriminate.
    + cbn [group_wf]. unfold file_name_wf. splits; try lia; cbn; lia.
    + cbn [group_wf]. unfold no_stmt. split; [|splits; reflexivity]. apply Forall_cons; [|apply Forall_cons; [|constructor]].
      * split; [apply BW; reflexivity|split; [apply text_call_wf|apply text_fmt_wf]].
      * split; [apply BW; reflexivity|split; [apply CW|apply FW]].
    + cbn [group_wf]. unfold no_stmt. splits; try reflexivity. constructor.
    + cbn [group_wf]. unfold no_stmt. split; [|splits; reflexivity]. apply Forall_cons; [|constructor]. split; [apply BW; reflexivity|split; [apply text_call_wf|apply text_fmt_wf]].
  - repeat constructor.
  - repeat constructor.
  - repeat (apply Forall_cons || apply Forall_nil); cbn [tame_group]; try exact I.
    + split; [constructor|split; reflexivity].
    + split; [|split; reflexivity]. apply Forall_cons; [|apply Forall_cons; [|constructor]]; cbn [fst snd].
      * split; [split; reflexivity|unfold tame_call; splits; try reflexivity; constructor].
      * split; [split; reflexivity|unfold tame_call; splits; try reflexivity; repeat constructor].
    + split; [constructor|split; reflexivity].
    + split; [|split; reflexivity]. apply Forall_cons; [|constructor]; cbn [fst snd]. split; [split; reflexivity|unfold tame_call; splits; try reflexivity; constructor].
  - reflexivity.
Qed.
