(** C53: the compiler sees every character of the user's code, and of the
    statements but for their names, at the file, line and column it has in the
    source. *)
From Coq Require Import String.
From Verif Require Import Base BaseProofs Chars Fmt FmtProofs Regex MicroCode MicroCodeProofs RingProofs DecodeProofs Preproc PreprocProofs PreprocLit Parser Prop_Parser SourceSpec Scanner ScanProofs StmtProofs Prop_Scanner.
Local Open Scope list_scope.
Ltac Zify.zify_post_hook ::= Z.div_mod_to_equations.

(** ** Specification *)

(** A character with file, line and column. *)
Definition cell := (Z * (list Z * Z * nat))%type.

(** The characters of a line that are no white space. *)
Fixpoint cells (f : list Z) (n : Z) (col : nat) (l : list Z) : list cell :=
  match l with
  | [] => []
  | c :: r => (if is_space c then [] else [(c, (f, n, col))]) ++ cells f n (S col) r
  end.

(** How a compiler reads preprocessed source from file [fst pos], line [snd pos]
    on: line markers set the position of the next line. *)
Inductive reads : list Z * Z -> list Z -> list cell -> Prop :=
| rd_nil : forall pos, reads pos [] []
| rd_marker : forall pos n f flags t v, 0 <= n -> ~ In 34 f -> ~ In 10 f -> ~ In 34 flags -> ~ In 10 flags ->
    reads (f, n) t v -> reads pos (chars "# " ++ dec_str n ++ [32] ++ quoted f ++ flags ++ 10 :: t) v
| rd_line : forall f n l t v, ~ In 10 l -> hd 0 l <> 35 -> reads (f, n + 1) t v -> reads (f, n) (l ++ 10 :: t) (cells f n 0 l ++ v).

(** Characters the source and the output do not share are marked. *)
Definition kept (v : list (cell * bool)) : list cell := map fst (filter (fun x => negb (snd x)) v).
Definition marked (v : list (cell * bool)) : list cell := map fst (filter snd v).

(** What is injected: code in a file of its own, and closing braces. *)
Definition injected (c : cell) : Prop := fst (fst (snd c)) = chars "injectedCode.fake" \/ fst c = 125.

(** The text the preprocessor writes. *)
Definition outputs (inputFile src code out : list Z) : Prop :=
  exists n c, steps n (start inputFile src) = Done c /\ written code c = out.

(** C53 as claimed.  [code] is the text of the generated functions, read as
    [generated] since it has its own line marker. *)
Definition C53_for (inputFile file flags : list Z) (l1 : list group) (pre post : list Z) (l2 : list group) : Prop :=
  let head := GDir 1 file flags :: l1 ++ [GMark pre post] in
  let stmts := file_stmts (pos_after (inputFile, 1) head) l2 in
  Forall (Z.le 0) (file_src (head ++ l2)) ->
  forall code generated, (forall pos, reads pos code generated) ->
  exists text (src out : list (cell * bool)) (calls : list cell),
    outputs inputFile (file_src (head ++ l2)) code text /\
    reads (inputFile, 1) (file_src (head ++ l2)) (map fst src) /\ reads (inputFile, 1) text (map fst out) /\
    kept src = kept out /\
    map fst (marked src) = flat_map (fun _ => log_function) stmts /\
    marked out = match stmts with [] => [] | _ => generated end ++ calls /\
    Forall injected calls /\
    map fst calls = flat_map (fun s => 123 :: fn_name s ++ [125]) stmts.
(** A line marker follows the end of the header. *)
Definition C53_full : Prop := forall inputFile file flags l1 pre post n f fl l2,
  file_wf file flags l1 pre post (GDir n f fl :: l2) -> C53_for inputFile file flags l1 pre post (GDir n f fl :: l2).

(** ** Proofs *)

Definition shared (v : list cell) : list (cell * bool) := map (fun c => (c, false)) v.
Definition special (v : list cell) : list (cell * bool) := map (fun c => (c, true)) v.

Lemma fst_shared : forall v, map fst (shared v) = v.
Proof. intro v. unfold shared. rewrite map_map. apply map_id. Qed.
Lemma fst_special : forall v, map fst (special v) = v.
Proof. intro v. unfold special. rewrite map_map. apply map_id. Qed.
Lemma kept_app : forall a b, kept (a ++ b) = kept a ++ kept b.
Proof. intros a b. unfold kept. now rewrite filter_app, map_app. Qed.
Lemma marked_app : forall a b, marked (a ++ b) = marked a ++ marked b.
Proof. intros a b. unfold marked. now rewrite filter_app, map_app. Qed.
Lemma kept_shared : forall v, kept (shared v) = v.
Proof. unfold kept, shared. induction v as [|c v IH]; [reflexivity|]. cbn. now rewrite IH. Qed.
Lemma kept_special : forall v, kept (special v) = [].
Proof. unfold kept, special. induction v as [|c v IH]; [reflexivity|]. exact IH. Qed.
Lemma marked_shared : forall v, marked (shared v) = [].
Proof. unfold marked, shared. induction v as [|c v IH]; [reflexivity|]. exact IH. Qed.
Lemma marked_special : forall v, marked (special v) = v.
Proof. unfold marked, special. induction v as [|c v IH]; [reflexivity|]. cbn. now rewrite IH. Qed.

Lemma cells_app : forall f n a b col, cells f n col (a ++ b) = cells f n col a ++ cells f n (col + length a) b.
Proof.
  induction a as [|c a IH]; intros b col; cbn [app cells length]; [now rewrite Nat.add_0_r|]. rewrite IH, <- app_assoc. now rewrite <- Nat.add_succ_comm.
Qed.
Lemma cells_blanks : forall f n k col, cells f n col (blanks k) = [].
Proof. unfold blanks. induction k as [|k IH]; intro col; [reflexivity|]. cbn [repeat cells]. exact (IH (S col)). Qed.
Lemma cells_solid : forall f n s col, map fst (cells f n col s) = filter (fun c => negb (is_space c)) s.
Proof.
  induction s as [|c s IH]; intros col; [reflexivity|]. cbn [filter cells] in *. rewrite map_app, IH. destruct (is_space c); reflexivity.
Qed.
Lemma cells_file : forall f n s col, Forall (fun c => fst (fst (snd c)) = f) (cells f n col s).
Proof. induction s as [|c s IH]; intros col; cbn [cells]; [constructor|]. apply Forall_app. split; auto. destruct (is_space c); repeat constructor. Qed.

(** Text over several lines: the cells, and where it ends. *)
Fixpoint flow (f : list Z) (n : Z) (col : nat) (s : list Z) : list cell :=
  match s with
  | [] => []
  | c :: r => (if is_space c then [] else [(c, (f, n, col))]) ++ (if c =? 10 then flow f (n + 1) 0 r else flow f n (S col) r)
  end.

Lemma flow_app : forall f a b n col, flow f n col (a ++ b) = flow f n col a ++ flow f (n + nls a) (column col a) b.
Proof.
  induction a as [|c a IH]; intros b n col; cbn [app flow column]; [unfold nls; cbn; now rewrite Z.add_0_r|].
  change (c :: a) with ([c] ++ a). rewrite (nls_app [c] a). destruct (Z.eqb_spec c 10) as [->|N].
  - rewrite IH, <- app_assoc. change (nls [10]) with 1. now rewrite Z.add_assoc.
  - rewrite IH, <- app_assoc. replace (nls [c]) with 0; [reflexivity|]. symmetry. apply nls_none. cbn. lia.
Qed.
Lemma flow_line : forall f s n col, ~ In 10 s -> flow f n col s = cells f n col s.
Proof.
  induction s as [|c s IH]; intros n col H; [reflexivity|]. cbn [flow cells]. replace (c =? 10) with false.
  - rewrite IH; auto. intro K. apply H. now right.
  - symmetry. apply Z.eqb_neq. intro E. apply H. now left.
Qed.

(** Lines that are no markers are read in one go; the text before a newline, and
    what follows it. *)
Lemma reads_flow : forall m s f n t v, (length s <= m)%nat -> within [10; 35] (10 :: s ++ [10]) = false ->
  reads (f, n + nls s + 1) t v -> reads (f, n) (s ++ 10 :: t) (flow f n 0 s ++ v).
Proof.
  induction m as [|m IH]; intros s f n t v Hm H R.
  all: assert (HD : forall a r, s ++ [10] = a ++ 10 :: r -> hd 0 a <> 35).
  1,3: (intros a r E; rewrite E in H; destruct a as [|x a]; cbn [app hd]; [discriminate|]; cbn [app within begins] in H; intros ->; discriminate H).
  all: destruct (in_dec Z.eq_dec 10 s) as [I|N].
  2,4: (rewrite flow_line by auto; apply rd_line; auto; [apply (HD s []); reflexivity|]; rewrite (proj2 (nls_none s) N), Z.add_0_r in R; exact R).
  - destruct s; [destruct I|cbn [length] in Hm; lia].
  - assert (SP : exists a b, s = a ++ 10 :: b /\ ~ In 10 a).
    { clear - I. induction s as [|c s IH]; [destruct I|]. destruct (Z.eq_dec c 10) as [->|N]; [exists [], s; split; auto|].
      destruct I as [I|I]; [congruence|]. destruct (IH I) as (a & b & -> & K). exists (c :: a), b. split; auto. cbn. intros [X|X]; auto. }
    destruct SP as (a & b & -> & N). rewrite <- app_assoc. cbn [app]. rewrite flow_app, (proj2 (nls_none a) N), Z.add_0_r, flow_line by auto. cbn [flow].
    change (is_space 10) with true. change (10 =? 10) with true. cbv iota. cbn [app]. rewrite <- app_assoc. apply rd_line; auto.
    + apply (HD a (b ++ [10])). rewrite <- app_assoc. reflexivity.
    + apply IH.
      * rewrite app_length in Hm. cbn [length] in Hm. lia.
      * rewrite <- app_assoc in H. apply (within_app_r [10; 35] (10 :: a)). exact H.
      * replace (n + 1 + nls b + 1) with (n + nls (a ++ 10 :: b) + 1); [exact R|]. rewrite nls_app, (proj2 (nls_none a) N). change (10 :: b) with ([10] ++ b). rewrite (nls_app [10]). change (nls [10]) with 1. lia.
Qed.

(** The views are unique. *)
Lemma split_at : forall (x : Z) a b a' b', ~ In x a -> ~ In x a' -> a ++ x :: b = a' ++ x :: b' -> a = a' /\ b = b'.
Proof.
  induction a as [|c a IH]; intros b [|c' a'] b' H H' E; cbn [app] in E.
  - injection E as E. auto.
  - exfalso. apply H'. left. congruence.
  - exfalso. apply H. left. congruence.
  - injection E as -> E. destruct (IH b a' b') as [-> ->]; auto; intro K; [apply H|apply H']; now right.
Qed.
Lemma reads_det : forall pos t v, reads pos t v -> forall v', reads pos t v' -> v = v'.
Proof.
  intros pos t v R. induction R as [pos|pos n f flags t v Hn F1 F2 G1 G2 R IH|f n l t v N H R IH]; intros v' R'.
  - remember (@nil Z) as T eqn:ET. destruct R' as [pos|pos n' f' flags' t' v' Hn' F1' F2' G1' G2' R'|f' n' l' t' v' N' H' R']; [reflexivity|discriminate ET|destruct l'; discriminate ET].
  - remember (chars "# " ++ dec_str n ++ [32] ++ quoted f ++ flags ++ 10 :: t) as T eqn:ET. destruct R' as [pos|pos n' f' flags' t' v' Hn' F1' F2' G1' G2' R'|f' n' l' t' v' N' H' R'].
    + discriminate ET.
    + apply IH. change (chars "# ") with [35; 32] in ET. unfold quoted in ET. cbn [app] in ET. injection ET as ET. rewrite <- !app_assoc in ET. cbn [app] in ET.
      apply split_at in ET as [E1 ET]; [|apply dec_no; auto; lia|apply dec_no; auto; lia]. apply dec_str_inj in E1; auto. injection ET as ET.
      apply split_at in ET as [E2 ET]; auto. apply split_at in ET as [E3 ET]; auto. subst. exact R'.
    + exfalso. destruct l' as [|c l']; [discriminate ET|]. change (chars "# ") with [35; 32] in ET. cbn [app] in ET. injection ET as -> _. now apply H'.
  - remember (l ++ 10 :: t) as T eqn:ET. remember (f, n) as P eqn:EP. destruct R' as [pos|pos n' f' flags' t' v' Hn' F1' F2' G1' G2' R'|f' n' l' t' v' N' H' R'].
    + destruct l; discriminate ET.
    + exfalso. change (chars "# ") with [35; 32] in ET. destruct l as [|c l]; [discriminate ET|]. cbn [app] in ET. injection ET as <- _. now apply H.
    + apply split_at in ET as [-> ->]; auto. injection EP as -> ->. f_equal. now apply IH.
Qed.
Print Assumptions reads_det.

(** A line in front of a text. *)
Lemma reads_marker_at : forall pos n f t v, 0 <= n -> file_name_wf f -> reads (f, n) t v -> reads pos (marker_at n f ++ t) v.
Proof.
  intros pos n f t v Hn [F1 F2] R. unfold marker_at. replace ((chars "# " ++ dec_str n ++ [32] ++ quoted f ++ [13; 10]) ++ t) with (chars "# " ++ dec_str n ++ [32] ++ quoted f ++ [13] ++ 10 :: t) by (rewrite <- !app_assoc; reflexivity).
  apply rd_marker; auto; cbn; lia.
Qed.
Lemma reads_cr : forall f n l t v, ~ In 10 l -> hd 0 (l ++ [13]) <> 35 -> reads (f, n + 1) t v -> reads (f, n) (l ++ [13; 10] ++ t) (cells f n 0 l ++ v).
Proof.
  intros f n l t v N H R. replace (l ++ [13; 10] ++ t) with ((l ++ [13]) ++ 10 :: t) by (rewrite <- !app_assoc; reflexivity).
  replace (cells f n 0 l) with (cells f n 0 (l ++ [13])) by (rewrite cells_app; cbn; apply app_nil_r). apply rd_line; auto. intro K. apply in_app_or in K as [K|[K|[]]]; [auto|discriminate K].
Qed.
Lemma reads_crs : forall s f n t v, within [10; 35] (10 :: s) = false -> reads (f, n + nls s + 1) t v -> reads (f, n) (s ++ [13; 10] ++ t) (flow f n 0 s ++ v).
Proof.
  intros s f n t v H R. replace (s ++ [13; 10] ++ t) with ((s ++ [13]) ++ 10 :: t) by (rewrite <- !app_assoc; reflexivity).
  replace (flow f n 0 s) with (flow f n 0 (s ++ [13])) by (rewrite flow_app; cbn; apply app_nil_r). apply (reads_flow (length (s ++ [13]))); [lia| |].
  - rewrite <- app_assoc. apply (within_stop [10; 35] (10 :: s) 13 [10]); [cbn; lia|discriminate|exact H|reflexivity].
  - rewrite nls_app. change (nls [13]) with 0. now rewrite Z.add_0_r.
Qed.
Lemma flow_blanks : forall f n k s, flow f n 0 (blanks k ++ s) = flow f n k s.
Proof.
  intros f n k s. assert (N : ~ In 10 (blanks k)) by (unfold blanks; intro K; apply repeat_spec in K; discriminate K).
  rewrite flow_app, flow_line, cells_blanks, (proj2 (nls_none _) N), Z.add_0_r by auto. rewrite column_none by auto. unfold blanks. rewrite repeat_length. reflexivity.
Qed.
Lemma nls_blanks : forall k s, nls (blanks k ++ s) = nls s.
Proof. intros k s. rewrite nls_app. replace (nls (blanks k)) with 0; [reflexivity|]. symmetry. apply nls_none. unfold blanks. intro K. apply repeat_spec in K. discriminate K. Qed.
Lemma within_blanks : forall k s, (0 < k)%nat -> within [10; 35] s = false -> within [10; 35] (10 :: blanks k ++ s) = false.
Proof.
  intros [|k] s H W; [lia|]. change (10 :: blanks (S k) ++ s) with ([10] ++ 32 :: (blanks k ++ s)). apply within_stop; [cbn; lia|discriminate|reflexivity|].
  apply (within_spaces [10; 35] k s); [discriminate|discriminate|exact W].
Qed.

Lemma column_pos : forall s p, last s 10 <> 10 -> (0 < column p s)%nat.
Proof.
  intros s p. destruct s as [|c s] using rev_ind; intro H; [exfalso; now apply H|]. rewrite last_last in H. rewrite column_app. cbn [column]. destruct (Z.eqb_spec c 10); [contradiction|lia].
Qed.
Lemma k_last : forall a k, last (a ++ k_src k) 10 = 59.
Proof.
  intros a k. assert (E : exists x, k_src k = x ++ [59]).
  { unfold k_src, call_src. exists (k_sp k ++ 40 :: toks_src (k_level k) ++ 44 :: toks_src (k_fmt k) ++ flat_map (fun a => 44 :: toks_src a) (k_more k) ++ 41 :: k_sp' k).
    rewrite <- !app_assoc. cbn [app]. rewrite <- !app_assoc. cbn [app]. rewrite <- !app_assoc. reflexivity. }
  destruct E as (x & ->). rewrite app_assoc. apply last_last.
Qed.

(** The characters of a line of code, in the source and in the output. *)
Fixpoint src_tags (f : list Z) (n : Z) (p : nat) (parts : list (list tok * call)) (rest : list tok) : list (cell * bool) :=
  match parts with
  | [] => shared (cells f n p (toks_src rest))
  | (pre, k) :: r =>
    let n1 := n + nls (k_src k) in
    shared (cells f n p (toks_src pre)) ++ special (cells f n (p + length (toks_src pre)) log_function)
      ++ shared (flow f n (p + length (toks_src pre) + 8) (k_src k))
      ++ src_tags f n1 (column p (toks_src pre ++ log_function ++ k_src k)) r rest
  end.
Fixpoint out_tags (f : list Z) (n : Z) (p : nat) (parts : list (list tok * call)) (rest : list tok) : list (cell * bool) :=
  match parts with
  | [] => shared (cells f n p (toks_src rest))
  | (pre, k) :: r =>
    let n1 := n + nls (k_src k) in
    shared (cells f n p (toks_src pre))
      ++ special (cells (chars "injectedCode.fake") n 0 (chars "{ " ++ fn_name (Stmt (toks_src (k_level k)) (lit_text (k_fmt k)) f n)))
      ++ shared (flow f n (p + length (toks_src pre) + 8) (k_src k)) ++ special (cells f (n1 + 1) 0 [125])
      ++ out_tags f n1 (column p (toks_src pre ++ log_function ++ k_src k)) r rest
  end.

Definition lines_ok (parts : list (list tok * call)) : Prop := Forall (fun x => nls (toks_src (fst x)) = 0) parts.

Lemma no_nl_name : ~ In 10 log_function.
Proof. vm_compute. intro K. repeat (destruct K as [K|K]; [discriminate K|]). exact K. Qed.

Lemma flow_src : forall parts rest f n p, lines_ok parts -> nls (toks_src rest) = 0 ->
  exists s, code_src parts rest = s ++ [10] /\ flow f n p s = map fst (src_tags f n p parts rest).
Proof.
  induction parts as [|[pre k] r IH]; intros rest f n p W HR; cbn [code_src src_tags].
  - exists (toks_src rest). split; [reflexivity|]. rewrite fst_shared. apply flow_line. now apply nls_none.
  - inversion W as [|? ? N W']; subst. cbn [fst] in N. cbv zeta. destruct (IH rest f (n + nls (k_src k)) (column p (toks_src pre ++ log_function ++ k_src k)) W' HR) as (s & E & F).
    exists (toks_src pre ++ log_function ++ k_src k ++ s). split; [rewrite E, <- !app_assoc; reflexivity|].
    assert (N' := proj1 (nls_none _) N). rewrite !map_app, !fst_shared, fst_special, <- F. rewrite flow_app, N, Z.add_0_r, (flow_line f (toks_src pre)) by auto. f_equal.
    rewrite column_none by auto. rewrite flow_app, (proj2 (nls_none _) no_nl_name), Z.add_0_r, (flow_line f log_function) by apply no_nl_name. f_equal.
    rewrite column_none by apply no_nl_name. change (length log_function) with 8%nat. rewrite flow_app. f_equal. f_equal.
    rewrite !column_app, (column_none (toks_src pre)), (column_none log_function) by (auto; apply no_nl_name). reflexivity.
Qed.

Lemma nls_code : forall parts rest, lines_ok parts -> nls (toks_src rest) = 0 -> forall s, code_src parts rest = s ++ [10] -> nls (code_src parts rest) = nls s + 1.
Proof. intros parts rest _ _ s ->. rewrite nls_app. reflexivity. Qed.

Lemma digit_solid : forall n, 0 <= n -> Forall (fun c => is_space c = false) (dec_str n).
Proof.
  intros n H. destruct (dec_str_spec n H) as (_ & D & _). eapply Forall_impl; [|exact D]. unfold is_digit, is_space, in_rng. intros c K. lia.
Qed.
Lemma encode_solid : forall l, Forall (Z.le 0) l -> Forall (fun c => is_space c = false) (encode l).
Proof.
  unfold encode. induction 1 as [|c l H _ IH]; [constructor|]. cbn [flat_map]. apply Forall_app. split; auto. unfold encode_char. destruct (is_alnum c) eqn:E; [|now apply digit_solid].
  constructor; auto. unfold is_alnum, is_space, in_rng in *. lia.
Qed.
Definition plain_stmt (s : stmt) : Prop := Forall (Z.le 0) (st_fmt s) /\ Forall (Z.le 0) (st_file s) /\ 0 <= st_line s.
Lemma fn_solid : forall s, plain_stmt s -> Forall (fun c => is_space c = false) (fn_name s).
Proof.
  intros s (H1 & H2 & H3). unfold fn_name, log_id. repeat (apply Forall_app; split); try (now apply encode_solid); try (now apply digit_solid); repeat constructor.
Qed.
Lemma fn_cells : forall s f n, plain_stmt s -> map fst (cells f n 0 (chars "{ " ++ fn_name s)) = 123 :: fn_name s.
Proof.
  intros s f n H. apply fn_solid in H. rewrite cells_solid. change (chars "{ " ++ fn_name s) with (123 :: 32 :: fn_name s). cbn [filter]. change (negb (is_space 123)) with true. change (negb (is_space 32)) with false. cbv iota. f_equal.
  induction H as [|c l E _ IH]; [reflexivity|]. cbn [filter]. now rewrite E, IH.
Qed.

Lemma reads_code : forall parts rest f n p t v, lines_ok parts -> nls (toks_src rest) = 0 -> 0 <= n -> file_name_wf f -> Forall plain_stmt (code_stmts f n parts) ->
  within [10; 35] (10 :: blanks p ++ code_src parts rest) = false ->
  reads (f, n + nls (code_src parts rest)) t v ->
  reads (f, n) (blanks p ++ code_out f n p parts rest ++ t) (map fst (out_tags f n p parts rest) ++ v).
Proof.
  induction parts as [|[pre k] r IH]; intros rest f n p t v W HR Hn FW PS H R; cbn [code_src code_out out_tags code_stmts] in *.
  - rewrite fst_shared. rewrite <- app_assoc. cbn [app]. rewrite app_assoc. rewrite <- (flow_line f), <- flow_blanks by (now apply nls_none).
    apply (reads_flow (length (blanks p ++ toks_src rest))); [lia|rewrite <- app_assoc; exact H|]. rewrite nls_blanks, HR. rewrite nls_app, HR in R. replace (n + 0 + 1) with (n + (0 + nls [10])) by (change (nls [10]) with 1; lia). exact R.
  - inversion W as [|? ? N W']; subst. cbn [fst] in N. cbv zeta. rewrite N, Z.add_0_r. set (n1 := n + nls (k_src k)). set (p1 := column p (toks_src pre ++ log_function ++ k_src k)).
    rewrite nls_app, N, Z.add_0_r in PS. change (0 + nls (k_src k)) with (nls (k_src k)) in PS. inversion PS as [|? ? PS1 PS2]; subst.
    set (fn := fn_name _). assert (N' := proj1 (nls_none _) N).
    assert (H1 : within [10; 35] (10 :: blanks p ++ toks_src pre) = false) by (rewrite app_assoc in H; exact (within_app_l [10; 35] (10 :: blanks p ++ toks_src pre) _ H)).
    assert (H2 : within [10; 35] (k_src k) = false).
    { apply within_app_l with (b := code_src r rest). apply within_app_r with (a := 10 :: blanks p ++ toks_src pre ++ log_function). cbn [app]. rewrite <- !app_assoc. exact H. }
    assert (H3 : within [10; 35] (code_src r rest) = false).
    { apply within_app_r with (a := 10 :: blanks p ++ toks_src pre ++ log_function ++ k_src k). cbn [app]. rewrite <- !app_assoc. exact H. }
    assert (P1 : (0 < p1)%nat) by (unfold p1; apply column_pos; rewrite app_assoc, k_last; discriminate).
    assert (Hn1 : 0 <= n1) by (unfold n1; pose proof (nls_nonneg (k_src k)); lia).
    assert (R1 : reads (f, n1) (blanks p1 ++ code_out f n1 p1 r rest ++ t) (map fst (out_tags f n1 p1 r rest) ++ v)).
    { apply IH; auto; [apply within_blanks; auto|]. rewrite !nls_app, N, (proj2 (nls_none _) no_nl_name) in R. unfold n1. replace (n + nls (k_src k) + nls (code_src r rest)) with (n + (0 + (0 + (nls (k_src k) + nls (code_src r rest))))) by lia. exact R. }
    rewrite !map_app, !fst_shared, !fst_special. rewrite <- !app_assoc.
    rewrite <- (flow_line f (toks_src pre)), <- flow_blanks by auto. rewrite (app_assoc (blanks p)). apply reads_crs; auto. rewrite nls_blanks, N, Z.add_0_r.
    apply reads_marker_at; auto.
    { split; vm_compute; intro K; repeat (destruct K as [K|K]; [discriminate K|]); exact K. }
    rewrite (app_assoc (chars "{ ") fn). apply reads_cr.
    { intro K. destruct K as [K|[K|K]]; try discriminate K. pose proof (fn_solid _ PS1) as FS. rewrite Forall_forall in FS. specialize (FS 10 K). discriminate FS. }
    { discriminate. }
    apply reads_marker_at; auto.
    rewrite (app_assoc (blanks _) (k_src k)). rewrite column_app, (column_none (toks_src pre)), (column_none log_function) by (auto; apply no_nl_name). change (length log_function) with 8%nat.
    rewrite <- (flow_blanks f n _ (k_src k)). apply reads_crs.
    { apply within_blanks; auto. lia. }
    rewrite nls_blanks. fold n1. rewrite (app_assoc [125; 13; 10]). change ([125; 13; 10] ++ marker_at n1 f) with ([125] ++ [13; 10] ++ marker_at n1 f). rewrite <- !app_assoc. apply reads_cr; [cbn; lia|discriminate|].
    apply reads_marker_at; auto.
Qed.

(** The two views. *)
Lemma tags_kept : forall parts rest f n p, kept (src_tags f n p parts rest) = kept (out_tags f n p parts rest).
Proof.
  induction parts as [|[pre k] r IH]; intros rest f n p; cbn [src_tags out_tags]; [reflexivity|]. cbv zeta. rewrite !kept_app, !kept_shared, !kept_special, IH. reflexivity.
Qed.
Lemma code_stmts_cons : forall pre k r f n, nls (toks_src pre) = 0 ->
  code_stmts f n ((pre, k) :: r) = Stmt (toks_src (k_level k)) (lit_text (k_fmt k)) f n :: code_stmts f (n + nls (k_src k)) r.
Proof. intros pre k r f n N. cbn [code_stmts]. rewrite nls_app, N, Z.add_0_r. reflexivity. Qed.
Lemma tags_src : forall parts rest f n p, lines_ok parts -> map fst (marked (src_tags f n p parts rest)) = flat_map (fun _ => log_function) (code_stmts f n parts).
Proof.
  induction parts as [|[pre k] r IH]; intros rest f n p W; [cbn [src_tags]; now rewrite marked_shared|]. inversion W as [|? ? N W']; subst. cbn [fst] in N.
  rewrite code_stmts_cons by auto. cbn [src_tags flat_map]. cbv zeta.
  rewrite !marked_app, !marked_shared, !marked_special, !map_app, cells_solid, IH by auto. reflexivity.
Qed.
Lemma tags_out : forall parts rest f n p, lines_ok parts -> Forall plain_stmt (code_stmts f n parts) ->
  Forall injected (marked (out_tags f n p parts rest)) /\
  map fst (marked (out_tags f n p parts rest)) = flat_map (fun s => 123 :: fn_name s ++ [125]) (code_stmts f n parts).
Proof.
  induction parts as [|[pre k] r IH]; intros rest f n p W PS; [cbn [out_tags]; rewrite marked_shared; split; [constructor|reflexivity]|]. inversion W as [|? ? N W']; subst. cbn [fst] in N.
  rewrite code_stmts_cons in * by auto. inversion PS as [|? ? PS1 PS2]; subst. destruct (IH rest f (n + nls (k_src k)) (column p (toks_src pre ++ log_function ++ k_src k)) W' PS2) as [I1 I2].
  cbn [out_tags flat_map]. cbv zeta. rewrite !marked_app, !marked_shared, !marked_special. cbn [app]. split.
  - apply Forall_app. split; [|apply Forall_app; split; auto].
    + eapply Forall_impl; [|apply cells_file]. intros c K. now left.
    + constructor; [now right|constructor].
  - rewrite map_app, fn_cells by auto. cbn [app]. rewrite <- app_assoc. cbn [app]. f_equal. f_equal. cbn [cells map fst]. change (is_space 125) with false. cbv iota. cbn [app map fst]. f_equal. exact I2.
Qed.

Definition group_tags (tags : list Z -> Z -> nat -> list (list tok * call) -> list tok -> list (cell * bool)) (pos : list Z * Z) (g : group) : list (cell * bool) :=
  match g with
  | GDir _ _ _ => []
  | GMark pre post => shared (cells (fst pos) (snd pos) 0 (pre ++ marker_line ++ post))
  | GCode parts rest => tags (fst pos) (snd pos) 0%nat parts rest
  end.
Fixpoint file_tags (tags : list Z -> Z -> nat -> list (list tok * call) -> list tok -> list (cell * bool)) (pos : list Z * Z) (l : list group) : list (cell * bool) :=
  match l with
  | [] => []
  | g :: r => group_tags tags pos g ++ file_tags tags (next_pos pos g) r
  end.

Lemma wf_lines : forall parts rest, group_wf (GCode parts rest) -> lines_ok parts /\ nls (toks_src rest) = 0 /\ within [10; 35] (10 :: code_src parts rest) = false.
Proof.
  intros parts rest (W & _ & N & H & _). split; auto. unfold lines_ok. eapply Forall_impl; [|exact W]. intros [pre k] ((_ & K & _) & _). exact K.
Qed.
Lemma reads_dir : forall n f fl pos t v, group_wf (GDir n f fl) -> reads (f, n) t v -> reads pos (group_src (GDir n f fl) ++ t) v.
Proof.
  intros n f fl pos t v (Hn & (F1 & F2) & G1 & G2) R. cbn [group_src]. replace ((chars "# " ++ dec_str n ++ [32] ++ quoted f ++ fl ++ [10]) ++ t) with (chars "# " ++ dec_str n ++ [32] ++ quoted f ++ fl ++ 10 :: t) by (rewrite <- !app_assoc; reflexivity).
  now apply rd_marker.
Qed.
Lemma reads_mark : forall a b f n t v, group_wf (GMark a b) -> reads (next_pos (f, n) (GMark a b)) t v -> reads (f, n) (group_src (GMark a b) ++ t) (cells f n 0 (a ++ marker_line ++ b) ++ v).
Proof.
  intros a b f n t v (N1 & N2 & H) R. cbn [group_src next_pos fst snd] in *. replace ((a ++ marker_line ++ b ++ [10]) ++ t) with ((a ++ marker_line ++ b) ++ 10 :: t) by (rewrite <- !app_assoc; reflexivity).
  assert (N : ~ In 10 (a ++ marker_line ++ b)).
  { intro K. repeat (apply in_app_or in K as [K|K]); auto. vm_compute in K. repeat (destruct K as [K|K]; [discriminate K|]). exact K. }
  apply rd_line; auto.
  - rewrite app_assoc, hd_app; auto. intro E. apply app_eq_nil in E as [_ E]. discriminate E.
  - replace (n + 1) with (n + nls (a ++ marker_line ++ b ++ [10])); [exact R|]. replace (a ++ marker_line ++ b ++ [10]) with ((a ++ marker_line ++ b) ++ [10]) by (rewrite <- !app_assoc; reflexivity).
    rewrite nls_app, (proj2 (nls_none _) N). reflexivity.
Qed.
Lemma reads_group_src : forall g pos t v, group_wf g -> reads (next_pos pos g) t v -> reads pos (group_src g ++ t) (map fst (group_tags src_tags pos g) ++ v).
Proof.
  intros [n f fl|a b|parts rest] [pf pn] t v W R; cbn [group_tags map app fst snd].
  - now apply reads_dir.
  - rewrite fst_shared. now apply reads_mark.
  - apply wf_lines in W as (W & N & H). cbn [group_src next_pos fst snd] in *. destruct (flow_src parts rest pf pn 0 W N) as (s & E & F). rewrite <- F. rewrite E in *. rewrite <- app_assoc. cbn [app].
    apply (reads_flow (length s)); [lia|exact H|]. rewrite nls_app, Z.add_assoc in R. exact R.
Qed.
Definition pos_wf (pos : list Z * Z) : Prop := 0 <= snd pos /\ file_name_wf (fst pos).
Lemma next_wf : forall pos g, pos_wf pos -> group_wf g -> pos_wf (next_pos pos g).
Proof.
  intros [f n] g [H F] W. split; [apply next_ok; auto|]. destruct g as [k fi fl|a b|ps r]; cbn [next_pos fst snd] in *; auto. now destruct W as (_ & W & _).
Qed.
Lemma reads_group_out : forall g pos t v, group_wf g -> pos_wf pos -> Forall plain_stmt (stmts_of pos g) ->
  reads (next_pos pos g) t v -> reads pos (group_out pos g ++ t) (map fst (group_tags out_tags pos g) ++ v).
Proof.
  intros [n f fl|a b|parts rest] [pf pn] t v W [P1 P2] PS R; cbn [group_tags group_out map app fst snd].
  - now apply reads_dir.
  - rewrite fst_shared. now apply reads_mark.
  - apply wf_lines in W as (W & N & H). cbn [group_src next_pos fst snd stmts_of] in *. exact (reads_code parts rest pf pn 0 t v W N P1 P2 PS H R).
Qed.

Lemma reads_src : forall l pos t v, Forall group_wf l -> reads (pos_after pos l) t v -> reads pos (file_src l ++ t) (map fst (file_tags src_tags pos l) ++ v).
Proof.
  induction l as [|g l IH]; intros pos t v W R; [exact R|]. inversion W; subst. cbn [file_tags]. change (file_src (g :: l)) with (group_src g ++ file_src l). rewrite map_app, <- !app_assoc.
  apply reads_group_src; auto.
Qed.
Lemma reads_out : forall l pos t v, Forall group_wf l -> pos_wf pos -> Forall plain_stmt (file_stmts pos l) ->
  reads (pos_after pos l) t v -> reads pos (file_out pos l ++ t) (map fst (file_tags out_tags pos l) ++ v).
Proof.
  induction l as [|g l IH]; intros pos t v W P PS R; [exact R|]. inversion W; subst. rewrite file_stmts_cons in PS. apply Forall_app in PS as [PS1 PS2]. cbn [file_tags file_out]. rewrite map_app, <- !app_assoc.
  apply reads_group_out; auto. apply IH; auto. now apply next_wf.
Qed.

Lemma file_kept : forall l pos, kept (file_tags src_tags pos l) = kept (file_tags out_tags pos l).
Proof.
  induction l as [|g l IH]; intro pos; [reflexivity|]. cbn [file_tags]. rewrite !kept_app, IH. f_equal. destruct g as [n f fl|a b|parts rest]; cbn [group_tags]; auto. apply tags_kept.
Qed.
Lemma file_marked : forall l pos, Forall group_wf l -> Forall plain_stmt (file_stmts pos l) ->
  map fst (marked (file_tags src_tags pos l)) = flat_map (fun _ => log_function) (file_stmts pos l) /\
  Forall injected (marked (file_tags out_tags pos l)) /\
  map fst (marked (file_tags out_tags pos l)) = flat_map (fun s => 123 :: fn_name s ++ [125]) (file_stmts pos l).
Proof.
  induction l as [|g l IH]; intros pos W PS; [splits; try reflexivity; constructor|]. inversion W as [|? ? W1 W2]; subst. rewrite file_stmts_cons in *. apply Forall_app in PS as [PS1 PS2].
  destruct (IH (next_pos pos g) W2 PS2) as (I1 & I2 & I3). cbn [file_tags]. rewrite !marked_app, !flat_map_app.
  assert (G : map fst (marked (group_tags src_tags pos g)) = flat_map (fun _ => log_function) (stmts_of pos g) /\ Forall injected (marked (group_tags out_tags pos g)) /\
    map fst (marked (group_tags out_tags pos g)) = flat_map (fun s => 123 :: fn_name s ++ [125]) (stmts_of pos g)).
  { destruct g as [n f fl|a b|parts rest]; cbn [group_tags stmts_of flat_map] in *.
    - splits; auto. constructor.
    - rewrite !marked_shared. splits; auto.
    - apply wf_lines in W1 as (W1 & _). destruct (tags_out parts rest (fst pos) (snd pos) 0 W1 PS1) as [O1 O2]. splits; auto. now apply tags_src. }
  destruct G as (G1 & G2 & G3). splits.
  - rewrite map_app. f_equal; assumption.
  - apply Forall_app. auto.
  - rewrite map_app. f_equal; assumption.
Qed.

(** The statements' texts are part of the source. *)
Definition plain_pos (pos : list Z * Z) : Prop := Forall (Z.le 0) (fst pos) /\ 0 <= snd pos.
Lemma lit_plain : forall l, Forall (Z.le 0) (toks_src l) -> Forall (Z.le 0) (lit_text l).
Proof.
  unfold toks_src, lit_text. induction l as [|t l IH]; intro H; [constructor|]. cbn [flat_map] in *. apply Forall_app in H as [H1 H2]. apply Forall_app. split; auto.
  destruct t; try constructor. cbn [tok_src] in H1. inversion H1 as [|? ? _ H3]; subst. now apply Forall_app in H3 as [H3 _].
Qed.
Lemma code_plain : forall parts rest f n, Forall (Z.le 0) f -> 0 <= n -> lines_ok parts -> Forall (Z.le 0) (code_src parts rest) -> Forall plain_stmt (code_stmts f n parts).
Proof.
  induction parts as [|[pre k] r IH]; intros rest f n F Hn W H; [constructor|]. inversion W as [|? ? N W']; subst. cbn [fst] in N. rewrite code_stmts_cons by auto. cbn [code_src] in H.
  apply Forall_app in H as [_ H]. apply Forall_app in H as [_ H]. apply Forall_app in H as [K H]. constructor; [|apply (IH rest); auto; pose proof (nls_nonneg (k_src k)); lia].
  unfold plain_stmt. cbn [st_fmt st_file st_line]. splits; auto. apply lit_plain. unfold k_src, call_src in K. apply Forall_app in K as [_ K]. inversion K as [|? ? _ K1]; subst. apply Forall_app in K1 as [_ K1]. inversion K1 as [|? ? _ K2]; subst.
  now apply Forall_app in K2 as [K2 _].
Qed.
Lemma file_plain : forall l pos, plain_pos pos -> Forall group_wf l -> Forall (Z.le 0) (file_src l) -> Forall plain_stmt (file_stmts pos l).
Proof.
  induction l as [|g l IH]; intros pos [F Hn] W H; [constructor|]. inversion W as [|? ? W1 W2]; subst. change (file_src (g :: l)) with (group_src g ++ file_src l) in H. apply Forall_app in H as [H1 H2]. rewrite file_stmts_cons. apply Forall_app. split.
  - destruct g as [n f fl|a b|parts rest]; cbn [stmts_of]; try constructor. apply (code_plain parts rest); auto. now apply wf_lines in W1.
  - apply IH; auto. split; [|now apply next_ok]. destruct g as [n f fl|a b|parts rest]; cbn [next_pos fst]; auto. cbn [group_src] in H1. apply Forall_app in H1 as [_ H1]. apply Forall_app in H1 as [_ H1]. apply Forall_app in H1 as [_ H1]. apply Forall_app in H1 as [H1 _].
    unfold quoted in H1. inversion H1 as [|? ? _ H3]; subst. now apply Forall_app in H3 as [H3 _].
Qed.

Lemma reads_then : forall pos a va, reads pos a va -> forall b vb, (forall p, reads p b vb) -> reads pos (a ++ b) (va ++ vb).
Proof.
  induction 1 as [pos|pos n f flags t v Hn F1 F2 G1 G2 R IH|f n l t v N H R IH]; intros b vb B.
  - apply B.
  - replace ((chars "# " ++ dec_str n ++ [32] ++ quoted f ++ flags ++ 10 :: t) ++ b) with (chars "# " ++ dec_str n ++ [32] ++ quoted f ++ flags ++ 10 :: (t ++ b)) by (rewrite <- !app_assoc; reflexivity).
    apply rd_marker; auto.
  - rewrite <- !app_assoc. cbn [app]. apply rd_line; auto.
Qed.

(** C53 for the files of C52_partial. *)
Theorem C53_partial : forall inputFile file flags l1 pre post n f fl l2,
  file_wf file flags l1 pre post (GDir n f fl :: l2) -> Forall tame_group (l1 ++ l2) ->
  C53_for inputFile file flags l1 pre post (GDir n f fl :: l2).
Proof.
  intros inputFile file flags l1 pre post n f fl l2 WF T. unfold C53_for. cbv zeta. intros PL code generated CR.
  set (head := GDir 1 file flags :: l1 ++ [GMark pre post]) in *. set (l := GDir n f fl :: l2) in *. set (pos := pos_after (inputFile, 1) head).
  destruct (C52_partial inputFile file flags l1 pre post l WF) as (m & c & ST & SS & WR).
  { apply Forall_app in T as [T1 T2]. apply Forall_app. split; auto. constructor; [exact I|auto]. }
  fold head pos in ST, SS, WR. destruct WF as (W & SF & ML).
  assert (EL : GDir 1 file flags :: l1 ++ GMark pre post :: l = head ++ l) by (unfold head; cbn [app]; rewrite <- app_assoc; reflexivity). rewrite EL in W. apply Forall_app in W as [W1 W2].
  assert (PW : pos_wf pos).
  { unfold pos, head, pos_after. cbn [fold_left]. inversion W1 as [|? ? WD WL]; subst. assert (P1 : pos_wf (next_pos (inputFile, 1) (GDir 1 file flags))) by (destruct WD as (_ & F & _); split; cbn; auto; lia).
    assert (G : forall l pos, Forall group_wf l -> pos_wf pos -> pos_wf (fold_left next_pos l pos)).
    { clear. induction l as [|g l IH]; intros pos WW P; [exact P|]. inversion WW; subst. cbn [fold_left]. apply IH; auto. now apply next_wf. }
    apply G; auto. }
  assert (PS : Forall plain_stmt (file_stmts pos l)).
  { rewrite file_src_app in PL. apply Forall_app in PL as [_ PL]. inversion W2 as [|? ? WD WL]; subst. unfold l in *. rewrite file_stmts_cons. cbn [stmts_of app]. change (file_src (GDir n f fl :: l2)) with (group_src (GDir n f fl) ++ file_src l2) in PL. apply Forall_app in PL as [PL1 PL2].
    apply file_plain; auto. split; [|destruct WD as (WD & _); exact WD]. cbn [next_pos fst]. cbn [group_src] in PL1. apply Forall_app in PL1 as [_ H1]. apply Forall_app in H1 as [_ H1]. apply Forall_app in H1 as [_ H1]. apply Forall_app in H1 as [H1 _].
    unfold quoted in H1. inversion H1 as [|? ? _ H3]; subst. now apply Forall_app in H3 as [H3 _]. }
  assert (MH : marked (file_tags src_tags (inputFile, 1) head) = []).
  { assert (G : forall l pos, Forall (fun g => match g with GCode (_ :: _) _ => False | _ => True end) l -> marked (file_tags src_tags pos l) = []).
    { clear. induction l as [|g l IH]; intros pos H; [reflexivity|]. inversion H as [|? ? H1 H2]; subst. cbn [file_tags]. rewrite marked_app, IH by auto. destruct g as [n f fl|a b|[|x ps] r]; cbn [group_tags src_tags]; try contradiction; try rewrite marked_shared; reflexivity. }
    apply G. unfold head. constructor; [exact I|]. apply Forall_app. split; [|constructor; [exact I|constructor]]. eapply Forall_impl; [|exact SF]. intros [a b d|a b|[|x ps] r] K; auto. }
  destruct (file_marked l pos W2 PS) as (M1 & M2 & M3).
  assert (RO : forall p, reads p (file_out pos l) (map fst (file_tags out_tags pos l))).
  { intro p. inversion W2 as [|? ? WD WL]; subst. unfold l in *. rewrite file_stmts_cons in PS. cbn [stmts_of app] in PS. cbn [file_out group_out file_tags group_tags app]. apply reads_dir; auto.
    pose proof (reads_out l2 (next_pos pos (GDir n f fl)) [] [] WL (next_wf _ _ PW WD) PS (rd_nil _)) as R. rewrite !app_nil_r in R. exact R. }
  set (gen := match file_stmts pos l with [] => [] | _ => generated end).
  exists (written code c), (file_tags src_tags (inputFile, 1) head ++ file_tags src_tags pos l), (file_tags src_tags (inputFile, 1) head ++ special gen ++ file_tags out_tags pos l), (marked (file_tags out_tags pos l)).
  split; [exists m, c; auto|]. split; [|split; [|split; [|split; [|split; [|split]]]]]; auto.
  - rewrite file_src_app, map_app. apply reads_src; auto. fold pos. pose proof (reads_src l pos [] [] W2 (rd_nil _)) as R. rewrite !app_nil_r in R. exact R.
  - rewrite WR, map_app. apply reads_src; auto. fold pos. rewrite map_app, fst_special. unfold gen. destruct (file_stmts pos l); [apply RO|]. apply reads_then; auto.
  - rewrite !kept_app, kept_special, (file_kept l pos). reflexivity.
  - rewrite marked_app, MH. exact M1.
  - rewrite !marked_app, MH, marked_special. reflexivity.
Qed.
Print Assumptions C53_partial.

(** ** Counterexample and example *)

Lemma reads_chars : forall pos t v, reads pos t v -> forall c, In c v -> In (fst c) t.
Proof.
  assert (G : forall f n l col c, In c (cells f n col l) -> In (fst c) l).
  { induction l as [|x l IH]; intros col c K; [exact K|]. cbn [cells] in K. apply in_app_or in K as [K|K]; [|right; eauto]. destruct (is_space x); [destruct K|]. destruct K as [<-|[]]. now left. }
  induction 1 as [pos|pos n f flags t v Hn F1 F2 G1 G2 R IH|f n l t v N H R IH]; intros c K; [exact K| |].
  - do 5 (apply in_or_app; right). right. auto.
  - apply in_app_or in K as [K|K]; apply in_or_app; [left; eauto|right; right; auto].
Qed.

(** The statement of C52_refuted_quote stays as it is. *)
Theorem C53_refuted : ~ C53_full.
Proof.
  intro H. set (l := [GDir 2 file52 []; quote52]).
  assert (W : file_wf file52 [] [] [] [] l).
  { unfold file_wf. splits; [|constructor|repeat constructor]. constructor; [|constructor; [|constructor; [|constructor; [|constructor]]]].
    - cbn [group_wf]. unfold file_name_wf. splits; try lia; cbn; lia.
    - cbn [group_wf]. splits; try (cbn; lia); discriminate.
    - cbn [group_wf]. unfold file_name_wf. splits; try lia; cbn; lia.
    - split; [constructor; [|constructor]|].
      + split; [|split; [apply text_call_wf|apply text_fmt_wf]]. unfold before_wf, no_stmt. splits; reflexivity.
      + unfold no_stmt. splits; reflexivity. }
  destruct (H (chars "in") file52 [] [] [] [] 2 file52 [] [quote52] W) with (code := @nil Z) (generated := @nil cell) as (text & src & out & calls & (n & c & ST & E) & _ & R & _ & _ & M & _ & CT).
  { apply Forall_forall. intros x K. vm_compute in K. repeat (destruct K as [<-|K]; [lia|]). destruct K. }
  { intro pos. constructor. }
  assert (K : exists c', steps 300 (start (chars "in") (file_src ((GDir 1 file52 [] :: [] ++ [GMark [] []]) ++ l))) = Done c' /\ ~ In 123 (written [] c')).
  { eexists. split; [vm_compute; reflexivity|]. vm_compute. intro K. repeat (destruct K as [K|K]; [discriminate K|]). exact K. }
  destruct K as (c' & K & N). rewrite (steps_det _ _ _ _ _ ST K) in E. apply N. rewrite E.
  assert (I : In 123 (map fst calls)) by (rewrite CT; left; reflexivity). apply in_map_iff in I as (x & Ex & I). rewrite <- Ex. apply (reads_chars _ _ _ R).
  assert (J : In x (marked out)) by (rewrite M; apply in_or_app; now right). unfold marked in J. apply in_map_iff in J as (y & <- & J). apply filter_In in J as [J _]. now apply in_map.
Qed.
Print Assumptions C53_refuted.

(** The groups of C52_instance start with a line marker. *)
Example C53_instance : file_wf file52 (chars " 2") [GCode [] (text "int x;")] [32] [] groups52 /\
  Forall tame_group ([GCode [] (text "int x;")] ++ tl groups52) /\ (exists n f fl l, groups52 = GDir n f fl :: l) /\
  Forall (Z.le 0) (file_src groups52).
Proof.
  destruct C52_instance as (W & T & _). splits; auto.
  - apply Forall_app in T as [T1 T2]. apply Forall_app. split; auto. now inversion T2.
  - unfold groups52. repeat eexists.
  - apply Forall_forall. intros x K. vm_compute in K. repeat (destruct K as [<-|K]; [lia|]). destruct K.
Qed.

(** A view: a marker, a line, a line. *)
Example reads_instance : reads (chars "in", 1) (chars "# 7 " ++ quoted (chars "b.h") ++ 10 :: chars "a b" ++ 10 :: chars " c" ++ [10])
  [(97, (chars "b.h", 7, 0%nat)); (98, (chars "b.h", 7, 2%nat)); (99, (chars "b.h", 8, 1%nat))].
Proof.
  apply (rd_marker _ 7 (chars "b.h") [] (chars "a b" ++ 10 :: chars " c" ++ [10])); try lia; try (cbn; lia).
  apply (rd_line _ 7 (chars "a b") (chars " c" ++ [10]) [(99, (chars "b.h", 8, 1%nat))]); [cbn; lia|discriminate|].
  apply (rd_line _ 8 (chars " c") [] []); [cbn; lia|discriminate|constructor].
Qed.
