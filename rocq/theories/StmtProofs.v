(** How processFile replaces the statements of a line. *)
From Coq Require Import String.
From Verif Require Import Base BaseProofs Chars Fmt FmtProofs Regex MicroCode MicroCodeProofs RingProofs DecodeProofs Preproc PreprocProofs PreprocLit Parser Prop_Parser Scanner SourceSpec ScanProofs.
Local Open Scope list_scope.
Ltac Zify.zify_post_hook ::= Z.div_mod_to_equations.

(** All tokens of a call up to its semicolon. *)
Definition all_toks (k : call) : list tok :=
  map TC (k_sp k) ++ TOpen Paren :: k_level k ++ TComma :: k_fmt k ++ flat_map (fun a => TComma :: a) (k_more k) ++ TClose Paren :: map TC (k_sp' k).

Lemma toks_map : forall s, toks_src (map TC s) = s.
Proof. induction s as [|c s IH]; [reflexivity|]. cbn [map]. rewrite toks_cons, IH. reflexivity. Qed.
Lemma all_src : forall k, k_src k = toks_src (all_toks k) ++ [59].
Proof.
  intro k. unfold k_src, all_toks. rewrite <- (app_nil_r (call_src _ _ _ _ _)), call_eq. rewrite toks_app, toks_map, toks_cons, toks_app, toks_cons, toks_app, toks_app, toks_cons, toks_map.
  assert (E : toks_src (flat_map (fun a => TComma :: a) (k_more k)) = flat_map (fun a => 44 :: toks_src a) (k_more k)).
  { induction (k_more k) as [|a l IH]; [reflexivity|]. cbn [flat_map]. rewrite toks_app, toks_cons, IH. reflexivity. }
  rewrite E. cbn [tok_src opening closing]. repeat (rewrite <- app_assoc; cbn [app]). reflexivity.
Qed.

(** What the theorem asks for beyond well-formedness. *)
Definition tame_call (k : call) : Prop :=
  forallb (tame false) (k_level k) = true /\ forallb (tame false) (k_fmt k) = true /\ Forall (fun a => forallb (tame true) a = true) (k_more k) /\
  within log_function (code_text (all_toks k)) = false.
Definition tame_before (pre : list tok) : Prop :=
  forallb unquoted pre = true /\ within log_function (code_text pre ++ chars "NANO_LO") = false.
Definition tame_rest (l : list tok) : Prop :=
  forallb unquoted l = true /\ within log_function (code_text l) = false.

Lemma space_lexed : forall s, forallb is_space s = true -> forallb lexed (map TC s) = true.
Proof.
  induction s as [|c s IH]; intro H; [reflexivity|]. cbn [forallb map] in *. apply andb_true_iff in H as [H1 H]. rewrite IH by auto. rewrite andb_true_r.
  cbn [lexed]. apply negb_true_iff. apply not_mem. unfold syntax. unfold is_space, in_rng in H1. repeat constructor; lia.
Qed.
Lemma tame_unquoted : forall b l, forallb (tame b) l = true -> forallb unquoted l = true.
Proof.
  intros b l H. rewrite forallb_forall in *. intros t Ht. specialize (H t Ht). destruct t as [s|s| |k|k|c]; try reflexivity. cbn [tame unquoted] in *.
  apply andb_true_iff in H as [H _]. rewrite forallb_forall in *. intros e He. specialize (H e He). destruct e as [c|c]; auto. cbn [tame_chr] in H.
  apply negb_true_iff in H. not_chars H. lia.
Qed.
Lemma all_lexed : forall k, call_wf k -> forallb lexed (all_toks k) = true.
Proof.
  intros k (S1 & S2 & _ & _ & _ & (LX & _)). unfold all_toks, call_toks in *. rewrite forallb_app in LX. cbn [forallb] in LX. rewrite forallb_app in LX. cbn [forallb] in LX.
  rewrite forallb_app. rewrite (space_lexed _ S1). cbn [forallb lexed andb]. rewrite !forallb_app. cbn [forallb lexed andb]. rewrite !forallb_app. cbn [forallb lexed andb]. rewrite (space_lexed _ S2), andb_true_r.
  apply andb_true_iff in LX as [-> LX]. cbn [lexed andb] in LX. apply andb_true_iff in LX as [-> LX]. cbn [lexed andb] in *.
  rewrite forallb_forall in *. intros t Ht. apply in_flat_map in Ht as (a & Ha & Ht). apply LX. destruct Ht as [<-|Ht]; apply in_flat_map; exists a; split; auto; apply in_or_app; cbn; auto.
Qed.
Lemma all_unquoted : forall k, tame_call k -> forallb unquoted (all_toks k) = true.
Proof.
  assert (M : forall s, forallb unquoted (map TC s) = true) by (induction s; auto).
  intros k (T1 & T2 & T3 & _). unfold all_toks. rewrite forallb_app, M. cbn [forallb unquoted andb]. rewrite forallb_app, (tame_unquoted _ _ T1). cbn [forallb unquoted andb].
  rewrite !forallb_app, (tame_unquoted _ _ T2). cbn [forallb unquoted andb]. rewrite M, andb_true_r.
  rewrite forallb_forall. intros t Ht. apply in_flat_map in Ht as (a & Ha & Ht). rewrite Forall_forall in T3. specialize (T3 a Ha). apply tame_unquoted in T3.
  destruct Ht as [<-|Ht]; [reflexivity|]. rewrite forallb_forall in T3. auto.
Qed.

Lemma starts_self : forall p b, starts p (p ++ b) = true.
Proof. induction p as [|x p IH]; intro b; [reflexivity|]. cbn [app starts]. now rewrite Z.eqb_refl, IH. Qed.

(** From the start of the line to the name. *)
Lemma to_name : forall pre p y L dn lc f n fi mk st,
  before_wf pre -> tame_before pre -> ident_char lc = false ->
  hd 0 (spaces p ++ toks_src pre ++ name ++ y) <> 35 -> within marker_text (spaces p ++ toks_src pre ++ name ++ y) = false ->
  exists lc', ident_char lc' = false /\
    reach (between dn ((spaces p ++ toks_src pre ++ name ++ y) :: L) lc f n fi mk st)
          (at_ (between dn ((spaces p ++ toks_src pre ++ name ++ y) :: L) lc f (n + 1) fi mk st)
             (spaces p ++ toks_src pre ++ name ++ y) (length (spaces p ++ toks_src pre)) false false lc').
Proof.
  intros pre p y L dn lc f n fi mk st ((LX & _) & N & LC0) (UN & M) LC H MK. set (line := spaces p ++ toks_src pre ++ name ++ y) in *.
  destruct (toks_scan (map TC (spaces p) ++ pre) (between dn (line :: L) lc f (n + 1) fi mk st) line 0 lc (name ++ y) (chars "NANO_LO")) as (lc' & R & K).
  - rewrite toks_app, toks_map, <- app_assoc. reflexivity.
  - rewrite forallb_app, LX, andb_true_r. clear. induction p as [|p IH]; [reflexivity|]. exact IH.
  - rewrite forallb_app, UN, andb_true_r. clear. induction p as [|p IH]; [reflexivity|]. exact IH.
  - apply agree_name.
  - rewrite code_app, <- app_assoc. replace (code_text (map TC (spaces p))) with (spaces p); [apply within_spaces; auto; discriminate|].
    clear. induction p as [|p IH]; [reflexivity|]. change (spaces (S p)) with (32 :: spaces p). cbn [map]. rewrite code_cons, <- IH. reflexivity.
  - rewrite toks_app, toks_map in R, K. cbn [Nat.add] in R. exists lc'. split.
    + destruct K as [K1 K2]. destruct (toks_src pre) as [|d b] eqn:E.
      * rewrite app_nil_r in *. destruct p as [|p]; [rewrite K1; auto|]. rewrite (K2 (spaces p) 32); [reflexivity| |discriminate].
        unfold spaces. change [32] with (repeat c_sp 1). rewrite <- repeat_app. f_equal. lia.
      * destruct (@exists_last _ (d :: b)) as (b0 & x & Eb); [discriminate|]. rewrite Eb in *. rewrite last_last in LC0. rewrite (K2 (spaces p ++ b0) x); auto.
        -- now rewrite app_assoc.
        -- intros ->. discriminate LC0.
    + eapply reach_trans; [|exact R]. apply reach_step. unfold step, between, next_line, at_. cbn [c_in c_lines c_line c_done c_file c_first c_mark c_stmts c_last]. cbv zeta.
      rewrite not_directive by auto. rewrite occurs_within, MK, occurs_within. replace (within name line) with true; [reflexivity|].
      symmetry. unfold line. rewrite app_assoc. apply within_here.
Qed.

Definition stmt_of (f : list Z) (n : Z) (k : call) : stmt := Stmt (toks_src (k_level k)) (lit_text (k_fmt k)) f n.

Definition cur_line (A : list Z) (n : Z) (f : list Z) (s : stmt) (tail : list Z) : list Z :=
  A ++ [13; 10] ++ marker_at n (chars "injectedCode.fake") ++ chars "{ " ++ fn_name s ++ [13; 10] ++ marker_at n f ++ blanks (length A + 8) ++ tail.

(** The replacement. *)
Lemma stmt_step : forall A y L k rest before scPre scPost behind dn lc0 lc f n fi m st line' tail,
  call_wf k -> tame_call k -> fmt_wf k -> ident_char lc = false ->
  y ++ concat L = k_src k ++ rest ->
  (A ++ name ++ y) :: L = before ++ (scPre ++ 59 :: scPost) :: behind ->
  concat before ++ scPre ++ [59] = A ++ name ++ k_src k ->
  line' = match before with [] => scPre ++ 59 :: crlf | _ => A ++ name ++ y end ->
  line' = A ++ name ++ tail ->
  step (at_ (between dn ((A ++ name ++ y) :: L) lc0 f n fi (Some (S m)) st) (A ++ name ++ y) (length A) false false lc)
  = Run (Conf dn (cur_line A n f (stmt_of f n k) tail :: tl (before ++ [scPre ++ 59 :: crlf]) ++ [125 :: crlf; marker_at (n + zlen before) f; spaces (length scPre + 1) ++ scPost] ++ behind)
           (Some (Inner line' (S (length A)) false false)) 78 f n fi (Some (S m)) (st ++ [stmt_of f n k])).
Proof.
  intros A y L k rest before scPre scPost behind dn lc0 lc f n fi m st line' tail CW CT (F1 & F2 & F3) LC EY EL EB E1 E2.
  assert (SK : forall o X, skipn (length A + o) (A ++ X) = skipn o X).
  { intros o X. rewrite skipn_app, skipn_all2 by lia. now replace (length A + o - length A)%nat with o by lia. }
  assert (SK0 : forall X, skipn (length A) (A ++ X) = X).
  { intro X. rewrite <- (Nat.add_0_r (length A)), SK. reflexivity. }
  assert (SK8 : forall X, skipn (length A + 8) (A ++ name ++ X) = X).
  { intro X. rewrite SK. reflexivity. }
  unfold step, at_, between, next_char. cbn [c_in in_off in_line in_escape in_quotes c_lines c_last c_done c_file c_line c_first c_mark c_stmts].
  rewrite SK0. change (name ++ y) with (78 :: [65; 78; 79; 95; 76; 79; 71] ++ y). cbv iota. change (78 =? c_bsl) with false. change (78 =? c_quote) with false.
  change (78 =? hd 0 name) with true. cbn [orb andb negb]. cbv iota. change (match_name name (78 :: [65; 78; 79; 95; 76; 79; 71] ++ y)) with (Some true). cbv iota.
  unfold ident_char in LC. rewrite LC. change (78 :: [65; 78; 79; 95; 76; 79; 71] ++ y) with (name ++ y). cbn [hd tl]. rewrite SK8, EY.
  destruct CW as (S1 & S2 & N1 & N2 & N3 & _). destruct CT as (T1 & T2 & T3 & _).
  assert (PL : skip_space (k_src k ++ rest) = 40 :: skipn (length (k_sp k) + 1) (k_src k ++ rest)).
  { unfold k_src. rewrite call_eq, skip_spaces by auto. f_equal. rewrite skipn_app, skipn_all2 by lia. now replace (length (k_sp k) + 1 - length (k_sp k))%nat with 1%nat by lia. }
  rewrite PL. cbv iota. change (40 =? c_lpar) with true. cbv iota.
  unfold inject. cbn [in_off in_line in_escape in_quotes c_lines c_last c_done c_file c_line c_first c_mark c_stmts concat hd]. cbv zeta.
  rewrite SK0. rewrite starts_self. cbn [negb]. cbv iota.
  assert (AL : (A ++ name ++ y) ++ concat L = A ++ name ++ k_src k ++ rest) by (rewrite <- !app_assoc, EY; reflexivity).
  rewrite AL, SK8. destruct (C51_partial (k_sp k) (k_level k) (k_fmt k) (k_more k) (k_sp' k) rest) as (others & P); auto.
  unfold k_src at 1. rewrite P. cbv iota. rewrite F1. destruct (lit_text (k_fmt k)) as [|f0 fm] eqn:LT; [congruence|]. cbv iota.
  fold (stmt_of f n k). replace (Stmt (toks_src (k_level k)) (f0 :: fm) f n) with (stmt_of f n k) by (unfold stmt_of; now rewrite LT).
  assert (AC : accepts st (stmt_of f n k) = true).
  { unfold accepts. destruct (lookup _ _); auto. unfold stmt_of. cbn [st_fmt]. rewrite LT. destruct (splitAndParse (f0 :: fm)); congruence. }
  rewrite AC. cbn [negb]. cbv iota.
  assert (RS : rest = scPost ++ concat behind).
  { assert (X : (A ++ name ++ k_src k) ++ rest = (A ++ name ++ k_src k) ++ scPost ++ concat behind).
    { rewrite <- EB at 2. rewrite <- !app_assoc, <- AL. change ((A ++ name ++ y) ++ concat L) with (concat ((A ++ name ++ y) :: L)). rewrite EL, concat_app. cbn [concat app]. rewrite <- !app_assoc. reflexivity. }
    now apply app_inv_head in X. }
  assert (LN : (length (A ++ name ++ k_src k ++ rest) - length rest - 1)%nat = (length (concat before) + length scPre)%nat).
  { assert (X : length (concat before ++ scPre ++ [59]) = length (A ++ name ++ k_src k)) by now rewrite EB. rewrite !app_length in *. cbn [length] in X. lia. }
  rewrite LN, EL, locate_here by (rewrite app_length; cbn [length]; lia). cbv iota.
  assert (FI : firstn (length scPre + 1) (scPre ++ 59 :: scPost) = scPre ++ [59]).
  { rewrite firstn_app, firstn_all2 by lia. now replace (length scPre + 1 - length scPre)%nat with 1%nat by lia. }
  assert (SI : skipn (length scPre + 1) (scPre ++ 59 :: scPost) = scPost).
  { rewrite skipn_app, skipn_all2 by lia. now replace (length scPre + 1 - length scPre)%nat with 1%nat by lia. }
  rewrite FI, SI. replace ((scPre ++ [59]) ++ crlf) with (scPre ++ 59 :: crlf) by (now rewrite <- app_assoc).
  rewrite <- E1. rewrite E2. rewrite SK8.
  assert (FA : firstn (length A) (A ++ name ++ tail) = A) by (rewrite firstn_app, Nat.sub_diag, firstn_all; apply app_nil_r).
  rewrite FA. unfold cur_line, rjust. replace (length (A ++ name ++ tail) - length tail)%nat with (length A + 8)%nat by (rewrite !app_length; change (length name) with 8%nat; lia).
  unfold line_marker, marker_at, quoted, blanks, spaces, zlen, fn_name, record_fn, crlf, qt, c_sp. change (hd 0 name) with 78.
  change (chars " ") with [32]. repeat (rewrite <- !app_assoc; cbn [app]). reflexivity.
Qed.

(** ** Behind a statement *)

Lemma marker_line_eq : forall n f, marker_at n f = chars "# " ++ dec_str n ++ [32] ++ quoted f ++ [13; 10].
Proof. reflexivity. Qed.

Lemma brace_run : forall dn L lc f m n f0 mk st, 0 <= n ->
  reach (between dn ((125 :: crlf) :: marker_at n f :: L) lc f m (Some f0) mk st)
        (between (dn ++ [125 :: crlf; marker_at n f]) L lc f (n - 1) (Some f0) mk st).
Proof.
  intros dn L lc f m n f0 mk st Hn. apply (reach_trans _ (between (dn ++ [125 :: crlf]) (marker_at n f :: L) lc f (m + 1) (Some f0) mk st)); apply reach_step.
  - reflexivity.
  - unfold step, between, next_line. cbn [c_in c_lines c_line c_done c_file c_first c_mark c_stmts c_last]. cbv zeta.
    rewrite marker_line_eq, directive_eq; [|auto|cbn; lia]. rewrite <- app_assoc. reflexivity.
Qed.

Lemma code_nl : forall parts rest, exists s, code_src parts rest = s ++ [10].
Proof.
  induction parts as [|[pre k] parts IH]; intro rest; cbn [code_src]; [eauto|]. destruct (IH rest) as (s & ->). exists (toks_src pre ++ log_function ++ k_src k ++ s).
  now rewrite <- !app_assoc.
Qed.
Lemma split_cons : forall x t, t <> [] -> ~ In 10 x -> exists l ls, split_lines t = l :: ls /\ split_lines (x ++ t) = (x ++ l) :: ls.
Proof.
  intros x t H N. rewrite split_breaks, breaks_none by auto. destruct t as [|c t]; [congruence|]. pose proof (split_nonempty c t). destruct (split_lines (c :: t)) as [|l ls]; [congruence|].
  exists l, ls. split; reflexivity.
Qed.
Lemma spaces_no10 : forall p, ~ In 10 (spaces p).
Proof. intros p H. apply repeat_spec in H. discriminate H. Qed.

Definition part_ok (x : list tok * call) : Prop :=
  before_wf (fst x) /\ call_wf (snd x) /\ fmt_wf (snd x) /\ tame_before (fst x) /\ tame_call (snd x).

Lemma name_no10 : ~ In 10 name.
Proof. cbn. intuition discriminate. Qed.

Lemma behind_name : forall l, within name (code_text l) = false -> within name (code_text (map TC [65; 78; 79; 95; 76; 79; 71] ++ l)) = false.
Proof. intros l H. rewrite code_app. cbn [map code_text flat_map quiet_src tok_src app within]. change (flat_map quiet_src l) with (code_text l). rewrite H. reflexivity. Qed.
Lemma behind_call : forall l, within name (code_text l) = false -> within name (code_text (l ++ [TC 59; TC 13])) = false.
Proof.
  intros l H. rewrite code_app. change (code_text [TC 59; TC 13]) with [59; 13]. apply within_stop; auto; [cbn; intuition discriminate|discriminate].
Qed.

(** Lines of code with statements. *)
Lemma code_run : forall parts rest p dn R lc f n f0 m st,
  0 <= n -> Forall part_ok parts -> no_stmt rest -> nls (toks_src rest) = 0 -> tame_rest rest ->
  within [10; 35] (10 :: spaces p ++ code_src parts rest) = false -> within marker_text (code_src parts rest) = false -> ident_char lc = false ->
  exists lc' ls, ident_char lc' = false /\ concat ls = spaces p ++ code_out f n p parts rest /\
    reach (between dn (split_lines (spaces p ++ code_src parts rest) ++ R) lc f (n - 1) (Some f0) (Some (S m)) st)
          (between (dn ++ ls) R lc' f (n - 1 + nls (code_src parts rest)) (Some f0) (Some (S m)) (st ++ code_stmts f n parts)).
Proof.
  induction parts as [|[pre k] parts IH]; intros rest p dn R lc f n f0 m st Hn HP NS RN (TU & TW) HH HM LC.
  - cbn [code_src code_out code_stmts] in *. rewrite app_nil_r. apply nls_none in RN.
    destruct NS as [LX _].
    assert (SL : split_lines (spaces p ++ toks_src rest ++ [10]) = [spaces p ++ toks_src rest ++ [10]]).
    { rewrite app_assoc, split_line; [now rewrite <- app_assoc|]. intro K. apply in_app_or in K as [K|K]; [now apply spaces_no10 in K|auto]. }
    rewrite SL. destruct (line_run rest dn R lc f (n - 1) (Some f0) (Some (S m)) st p) as (lc' & L & RR); auto.
    { cbn [within begins] in HH. destruct (spaces p ++ toks_src rest ++ [10]) as [|h t]; [discriminate|]. cbn [hd]. intros ->. discriminate HH. }
    { now apply within_app_l in HM. }
    exists lc', [spaces p ++ toks_src rest ++ [10]]. splits; auto; [cbn [concat]; now rewrite app_nil_r|].
    rewrite nls_app, (proj2 (nls_none _) RN). exact RR.
  - inversion HP as [|? ? (BW & CW & FW & TB & TC_) HP']; subst. cbn [fst snd] in *. cbn [code_src] in *.
    destruct (code_nl parts rest) as (T0 & ET). set (T := code_src parts rest) in *.
    assert (NT : T <> []) by (rewrite ET; destruct T0; discriminate).
    pose proof BW as (_ & PN & _). pose proof PN as PN'. apply nls_none in PN'.
    set (A := spaces p ++ toks_src pre).
    assert (AN : ~ In 10 (A ++ name)).
    { unfold A. intro K. apply in_app_or in K as [K|K]; [apply in_app_or in K as [K|K]; [now apply spaces_no10 in K|auto]|now apply name_no10 in K]. }
    pose proof (all_src k) as EK. pose proof (all_lexed k CW) as LXK. pose proof (all_unquoted k TC_) as UNK. pose proof TC_ as (_ & _ & _ & WK).
    change log_function with name in *.
    assert (NLK : nls (toks_src pre ++ name ++ k_src k ++ T) = nls (k_src k) + nls T).
    { rewrite nls_app, PN, nls_app, nls_app. change (nls name) with 0. lia. }
    assert (KN : 0 <= nls (k_src k)) by (unfold nls, zlen; lia).
    assert (EA : spaces p ++ toks_src pre ++ name ++ k_src k ++ T = A ++ name ++ k_src k ++ T) by (unfold A; now rewrite <- app_assoc).
    rewrite EA in *. clear EA.
    assert (HMA : within marker_text (A ++ name ++ k_src k ++ T) = false).
    { unfold A. rewrite <- app_assoc. apply within_spaces; auto; discriminate. }
    assert (HDA : hd 0 (A ++ name) <> 35).
    { cbn [within begins] in HH. destruct (A ++ name) as [|h t] eqn:E; [discriminate|]. rewrite app_assoc, E in HH. cbn [app hd] in *. intros ->. discriminate HH. }
    assert (HMT : within marker_text T = false).
    { apply within_app_r, within_app_r, within_app_r in HM. exact HM. }
    assert (HHT : forall q, within [10; 35] (10 :: spaces (S q) ++ T) = false).
    { assert (W : within [10; 35] T = false).
      { change (10 :: A ++ name ++ k_src k ++ T) with ((10 :: A) ++ name ++ k_src k ++ T) in HH. now apply within_app_r, within_app_r, within_app_r in HH. }
      intro q. change (10 :: spaces (S q) ++ T) with (10 :: 32 :: spaces q ++ T). cbn [within begins]. rewrite within_spaces; auto; discriminate. }
    assert (FIN : forall before scPre scPost behind line0 L tail LS2 line',
      (* where the semicolon is *)
      line0 :: L = before ++ (scPre ++ 59 :: scPost) :: behind ->
      split_lines (A ++ name ++ k_src k ++ T) = line0 :: L ->
      concat before ++ scPre ++ [59] = A ++ name ++ k_src k ->
      (exists y, line0 = A ++ name ++ y /\ y ++ concat L = k_src k ++ T) ->
      line' = match before with [] => scPre ++ 59 :: crlf | _ => line0 end -> line' = A ++ name ++ tail ->
      split_lines T = scPost :: behind ->
      zlen before = nls (k_src k) ->
      (length scPre + 1)%nat = column p (toks_src pre ++ name ++ k_src k) ->
      (* the rest of the first line, the other lines *)
      (forall c, reach (at_ c line' (S (length A)) false false 78)
         (Conf (c_done c ++ [hd [] (c_lines c)]) (tl (c_lines c)) None 10 (c_file c) (c_line c) (c_first c) (c_mark c) (c_stmts c))) ->
      tl (before ++ [scPre ++ 59 :: crlf]) = LS2 -> tail ++ concat LS2 = k_src k ++ crlf ->
      (forall dn R n st, exists n' lcx, ident_char lcx = false /\
         reach (between dn (LS2 ++ R) 10 f n (Some f0) (Some (S m)) st) (between (dn ++ LS2) R lcx f n' (Some f0) (Some (S m)) st)) ->
      exists lc' ls, ident_char lc' = false /\ concat ls = spaces p ++ code_out f n p ((pre, k) :: parts) rest /\
        reach (between dn (split_lines (A ++ name ++ k_src k ++ T) ++ R) lc f (n - 1) (Some f0) (Some (S m)) st)
          (between (dn ++ ls) R lc' f (n - 1 + nls (toks_src pre ++ name ++ k_src k ++ T)) (Some f0) (Some (S m)) (st ++ code_stmts f n ((pre, k) :: parts)))).
    { intros before scPre scPost behind line0 L tail LS2 line' E0 ES EB (y & EY & EYL) EL1 EL2 ETL EZ ECOL SCAN ELS2 ECON MID.
      rewrite ES. cbn [app].
      destruct (to_name pre p y (L ++ R) dn lc f (n - 1) (Some f0) (Some (S m)) st BW TB LC) as (l1 & LC1 & R1).
      { rewrite app_assoc. fold A. rewrite app_assoc. destruct (A ++ name) eqn:E; [apply app_eq_nil in E as [_ E]; discriminate E|exact HDA]. }
      { rewrite app_assoc. fold A. rewrite <- EY. rewrite <- (split_concat (A ++ name ++ k_src k ++ T)), ES in HMA. cbn [concat] in HMA. now apply within_app_l in HMA. }
      rewrite (app_assoc (spaces p)) in R1. fold A in R1. rewrite <- EY in R1. replace (n - 1 + 1) with n in R1 by lia.
      assert (ST := stmt_step A y (L ++ R) k (T ++ concat R) before scPre scPost (behind ++ R) dn lc l1 f n (Some f0) m st line' tail CW TC_ FW LC1).
      rewrite <- EY in ST. specialize (ST ltac:(rewrite concat_app, app_assoc, EYL; now rewrite <- app_assoc)).
      specialize (ST ltac:(rewrite app_comm_cons, E0; now rewrite <- app_assoc) EB EL1 EL2).
      rewrite ELS2 in ST.
      set (cur := cur_line A n f (stmt_of f n k) tail) in *.
      set (n1 := n + zlen before) in *.
      assert (EN1 : n1 = n + nls (k_src k)) by (unfold n1; lia).
      set (p1 := (length scPre + 1)%nat) in *.
      assert (P1 : exists q, p1 = S q) by (exists (length scPre); unfold p1; lia). destruct P1 as (q & P1).
      (* the first line *)
      assert (R2 := SCAN (between dn (cur :: LS2 ++ [125 :: crlf; marker_at n1 f; spaces p1 ++ scPost] ++ behind ++ R) lc f n (Some f0) (Some (S m)) (st ++ [stmt_of f n k]))).
      cbn [between c_done c_lines c_file c_line c_first c_mark c_stmts hd tl] in R2.
      (* the others *)
      destruct (MID (dn ++ [cur]) ([125 :: crlf; marker_at n1 f; spaces p1 ++ scPost] ++ behind ++ R) n (st ++ [stmt_of f n k])) as (n' & lcx & LCX & R3).
      assert (R4 := brace_run ((dn ++ [cur]) ++ LS2) ((spaces p1 ++ scPost) :: behind ++ R) lcx f n' n1 f0 (Some (S m)) (st ++ [stmt_of f n k]) ltac:(lia)).
      (* what follows *)
      destruct (IH rest p1 (((dn ++ [cur]) ++ LS2) ++ [125 :: crlf; marker_at n1 f]) R lcx f n1 f0 m (st ++ [stmt_of f n k])) as (l2 & ls & LC2 & EC & R5); auto; try lia.
      { now split. }
      { rewrite P1. apply HHT. }
      exists l2, ([cur] ++ LS2 ++ [125 :: crlf; marker_at n1 f] ++ ls). splits; auto.
      - rewrite !concat_app, EC. cbn [concat app]. rewrite !app_nil_r. cbn [code_out]. cbv zeta. rewrite PN, Z.add_0_r.
        change log_function with name. rewrite <- ECOL, <- EN1. unfold cur, cur_line, A, stmt_of.
        replace (column p (toks_src pre ++ name)) with (length (spaces p ++ toks_src pre) + 8)%nat.
        2: { rewrite column_none; [rewrite !app_length; unfold spaces; rewrite repeat_length; change (length name) with 8%nat; lia|].
             intro K. apply in_app_or in K as [K|K]; [auto|now apply name_no10 in K]. }
        assert (TT : forall Z, tail ++ concat LS2 ++ Z = k_src k ++ 13 :: 10 :: Z) by (intro; rewrite app_assoc, ECON; now rewrite <- app_assoc).
        unfold blanks, spaces, c_sp. repeat (rewrite <- app_assoc; cbn [app]). rewrite TT. reflexivity.
      - cbn [code_stmts]. rewrite PN, Z.add_0_r. replace (nls (toks_src pre ++ k_src k)) with (nls (k_src k)) by (rewrite nls_app; lia). rewrite <- EN1. fold (stmt_of f n k).
        rewrite NLK. replace (n - 1 + (nls (k_src k) + nls T)) with (n1 - 1 + nls T) by lia.
        eapply reach_trans; [exact R1|]. eapply reach_trans; [apply reach_step; exact ST|].
        eapply reach_trans; [exact R2|]. eapply reach_trans; [exact R3|]. eapply reach_trans; [exact R4|].
        replace (st ++ stmt_of f n k :: code_stmts f n1 parts) with ((st ++ [stmt_of f n k]) ++ code_stmts f n1 parts) by (now rewrite <- app_assoc).
        replace (dn ++ [cur] ++ LS2 ++ [125 :: crlf; marker_at n1 f] ++ ls) with ((((dn ++ [cur]) ++ LS2) ++ [125 :: crlf; marker_at n1 f]) ++ ls) by (now rewrite <- !app_assoc).
        change (code_src parts rest) with T in R5. replace (split_lines (spaces p1 ++ T)) with ((spaces p1 ++ scPost) :: behind) in R5; [exact R5|].
        destruct (split_cons (spaces p1) T NT (spaces_no10 p1)) as (l & lr & X1 & X2). rewrite X2. rewrite ETL in X1. injection X1 as <- <-. reflexivity. }
    destruct (toks_line (all_toks k) LXK) as [N10|(a & b & EAB & N10)].
    + (* one line *)
      set (X := toks_src (all_toks k)) in *.
      destruct (split_cons [59] T NT) as (l & ls & X1 & X2); [cbn; lia|]. cbn [app] in X2.
      assert (AX : ~ In 10 ((A ++ name) ++ X)) by (intro K; apply in_app_or in K; tauto).
      destruct (split_cons ((A ++ name) ++ X) (59 :: T)) as (l' & ls' & Y1 & Y2); [discriminate|auto|].
      rewrite X2 in Y1. injection Y1 as <- <-.
      apply (FIN [] (A ++ name ++ X) l ls (((A ++ name) ++ X) ++ 59 :: l) ls (X ++ 59 :: crlf) [] ((A ++ name ++ X) ++ 59 :: crlf)).
      * cbn [app]. now rewrite <- !app_assoc.
      * rewrite <- Y2. f_equal. rewrite EK. now rewrite <- !app_assoc.
      * cbn [concat app]. rewrite EK. now rewrite <- !app_assoc.
      * exists (X ++ 59 :: l). split; [now rewrite <- !app_assoc|]. rewrite EK, <- !app_assoc. cbn [app]. do 2 f_equal.
        rewrite <- (split_concat T), X1. reflexivity.
      * reflexivity.
      * now rewrite <- !app_assoc.
      * exact X1.
      * change (zlen (@nil (list Z))) with 0. symmetry. apply nls_none. rewrite EK. intro K. apply in_app_or in K as [K|[K|[]]]; [auto|discriminate K].
      * rewrite column_none; [rewrite EK; unfold A, spaces; rewrite !app_length, repeat_length; cbn [length]; lia|].
        rewrite EK. intro K. apply in_app_or in K as [K|K]; [auto|]. apply in_app_or in K as [K|K]; [now apply name_no10 in K|]. apply in_app_or in K as [K|[K|[]]]; [auto|discriminate K].
      * intro c. apply (rest_scan (map TC [65; 78; 79; 95; 76; 79; 71] ++ all_toks k ++ [TC 59; TC 13])).
        -- replace ((A ++ name ++ X) ++ 59 :: crlf) with ((A ++ [78]) ++ [65; 78; 79; 95; 76; 79; 71] ++ X ++ 59 :: crlf) by (rewrite <- !app_assoc; reflexivity).
           replace (S (length A)) with (length (A ++ [78])) by (rewrite app_length; cbn [length]; lia). rewrite skipn_app, skipn_all, Nat.sub_diag. cbn [app skipn].
           rewrite toks_app, toks_map, toks_app. cbn [app]. rewrite <- !app_assoc. reflexivity.
        -- rewrite !forallb_app, LXK. reflexivity.
        -- rewrite !forallb_app, UNK. reflexivity.
        -- apply behind_name, behind_call, WK.
      * reflexivity.
      * cbn [concat]. rewrite EK, app_nil_r, <- app_assoc. reflexivity.
      * intros. exists n0, 10. rewrite app_nil_r. split; [reflexivity|apply reach_refl].
    + (* several lines *)
      rewrite EAB, toks_app, toks_cons in EK. cbn [tok_src app] in EK. rewrite <- app_assoc in EK. cbn [app] in EK.
      set (X := toks_src a) in *. set (Y := toks_src b) in *.
      destruct (split_cons [59] T NT) as (l & ls & X1 & X2); [cbn; lia|]. cbn [app] in X2.
      destruct (breaks Y) as [F P] eqn:EBR.
      assert (EC : concat F ++ P = Y) by (pose proof (breaks_concat Y) as Q; rewrite EBR in Q; exact Q).
      assert (EF : zlen F = nls Y) by (pose proof (breaks_len Y) as Q; rewrite EBR in Q; exact Q).
      assert (SY : split_lines (Y ++ 59 :: T) = F ++ (P ++ 59 :: l) :: ls).
      { rewrite split_breaks by discriminate. rewrite EBR. cbn [fst snd]. rewrite X2. reflexivity. }
      assert (SY2 : split_lines (Y ++ [59; 13; 10]) = F ++ [P ++ 59 :: crlf]).
      { rewrite split_breaks by discriminate. rewrite EBR. reflexivity. }
      rewrite EAB, forallb_app in LXK, UNK. cbn [forallb] in LXK, UNK. apply andb_true_iff in LXK as [LXA LXB]. apply andb_true_iff in UNK as [UNA UNB].
      cbn [lexed unquoted] in LXB, UNB. apply andb_true_iff in LXB as [_ LXB]. apply andb_true_iff in UNB as [_ UNB].
      rewrite EAB, code_app, code_cons in WK. cbn [quiet_src tok_src] in WK.
      assert (AX : ~ In 10 (A ++ name ++ X)).
      { rewrite app_assoc. intro K. apply in_app_or in K. tauto. }
      assert (ETXT : A ++ name ++ k_src k ++ T = (A ++ name ++ X) ++ 10 :: Y ++ 59 :: T).
      { rewrite EK. repeat (rewrite <- app_assoc; cbn [app]). reflexivity. }
      apply (FIN ((A ++ name ++ X ++ [10]) :: F) P l ls (A ++ name ++ X ++ [10]) (F ++ (P ++ 59 :: l) :: ls) (X ++ [10]) (F ++ [P ++ 59 :: crlf]) (A ++ name ++ X ++ [10])).
      * reflexivity.
      * rewrite ETXT, split_line, SY by auto. now rewrite <- !app_assoc.
      * cbn [concat]. rewrite EK, <- EC. repeat (rewrite <- app_assoc; cbn [app]). reflexivity.
      * exists (X ++ [10]). split; auto. rewrite concat_app. cbn [concat]. rewrite EK, <- EC.
        rewrite <- (split_concat T), X1. cbn [concat]. repeat (rewrite <- app_assoc; cbn [app]). reflexivity.
      * reflexivity.
      * reflexivity.
      * exact X1.
      * rewrite EK, nls_app. change (10 :: Y ++ [59]) with ([10] ++ Y ++ [59]). rewrite (nls_app [10]), (nls_app Y), (proj2 (nls_none X) N10).
        change (nls [10]) with 1. change (nls [59]) with 0. unfold zlen in *. cbn [length]. lia.
      * rewrite EK, !column_app. cbn [column]. change (10 =? 10) with true. cbv iota. rewrite column_app. cbn [column]. change (59 =? 10) with false. cbv iota.
        rewrite column_breaks, EBR. cbn [fst snd]. destruct F; lia.
      * intro c. apply (rest_scan (map TC [65; 78; 79; 95; 76; 79; 71] ++ a)).
        -- replace (A ++ name ++ X ++ [10]) with ((A ++ [78]) ++ [65; 78; 79; 95; 76; 79; 71] ++ X ++ [10]) by (rewrite <- !app_assoc; reflexivity).
           replace (S (length A)) with (length (A ++ [78])) by (rewrite app_length; cbn [length]; lia). rewrite skipn_app, skipn_all, Nat.sub_diag. cbn [app skipn].
           rewrite toks_app, toks_map. reflexivity.
        -- rewrite !forallb_app, LXA. reflexivity.
        -- rewrite !forallb_app, UNA. reflexivity.
        -- apply behind_name. eapply within_app_l; eauto.
      * reflexivity.
      * rewrite concat_app. cbn [concat]. rewrite EK, <- EC, app_nil_r. repeat (rewrite <- app_assoc; cbn [app]). reflexivity.
      * intros dn' R' n' st'. rewrite <- SY2.
        assert (EYT : Y ++ [59; 13; 10] = toks_src (b ++ [TC 59; TC 13]) ++ [10]) by (rewrite toks_app, <- app_assoc; reflexivity).
        rewrite EYT. destruct (lines_run _ (b ++ [TC 59; TC 13]) dn' R' 10 f n' (Some f0) (Some (S m)) st' (Nat.le_refl _)) as (lcx & LCX & RR).
        -- rewrite forallb_app, LXB. reflexivity.
        -- rewrite forallb_app, UNB. reflexivity.
        -- apply behind_call. apply within_app_r in WK. cbn [app within] in WK. apply orb_false_iff in WK. tauto.
        -- rewrite <- EYT. change (10 :: Y ++ [59; 13; 10]) with ((10 :: Y) ++ 59 :: [13; 10]). apply within_stop; [cbn; lia|discriminate| |reflexivity].
           rewrite ETXT in HH. change (10 :: (A ++ name ++ X) ++ 10 :: Y ++ 59 :: T) with ((10 :: A ++ name ++ X) ++ (10 :: Y) ++ 59 :: T) in HH.
           apply within_app_r in HH. now apply within_app_l in HH.
        -- rewrite toks_app. change (toks_src [TC 59; TC 13]) with [59; 13].
           replace (toks_src b ++ [59; 13]) with ((Y ++ [59]) ++ [13]) by (rewrite <- app_assoc; reflexivity). apply within_stop; [|discriminate| |reflexivity].
           { intro K. vm_compute in K. repeat (destruct K as [K|K]; [discriminate K|]). exact K. }
           rewrite ETXT in HMA. replace ((A ++ name ++ X) ++ 10 :: Y ++ 59 :: T) with ((A ++ name ++ X) ++ [10] ++ (Y ++ [59]) ++ T) in HMA by (rewrite <- !app_assoc; reflexivity).
           apply within_app_r, within_app_r in HMA. now apply within_app_l in HMA.
        -- reflexivity.
        -- eauto.
Qed.
