(** C81: vformat returns the whole text.  C82: a hex dump shows the buffer. *)
From Verif Require Import Base BaseProofs Chars HexDump.
Ltac Zify.zify_post_hook ::= Z.div_mod_to_equations.

(** ** Specification *)

(** The text as a C string: the longest part from its start without a NUL. *)
Definition c_string_of (text s : list Z) : Prop :=
  ~ In 0 s /\ (text = s \/ exists r, text = s ++ 0 :: r).

(** For every text printf's conversions can yield (its length is an int, and
    INT_MAX characters would need a buffer of INT_MAX + 1). *)
Definition C81_stmt : Prop := forall text, zlen text < 2 ^ 31 - 1 -> exists s, vformat text = Some s /\ c_string_of text s.

(** A hexadecimal number. *)
Definition digit_value (c v : Z) : Prop := (48 <= c <= 57 /\ v = c - 48) \/ (97 <= c <= 102 /\ v = c - 97 + 10).
Inductive hex_value : list Z -> Z -> Prop :=
| hex_nil : hex_value [] 0
| hex_snoc : forall ds v c d, hex_value ds v -> digit_value c d -> hex_value (ds ++ [c]) (16 * v + d).

Fixpoint spaced (cells : list (list Z)) : list Z :=
  match cells with [] => [] | [c] => c | c :: r => c ++ [32] ++ spaced r end.

(** A line of the dump: the offset, the bytes in two groups of eight columns, the bytes as characters. *)
Definition shows_row (off : Z) (row line : list Z) : Prop :=
  exists o cs a, line = o ++ chars "  " ++ spaced (firstn 8 cs) ++ chars "  " ++ spaced (skipn 8 cs) ++ chars "  |" ++ a ++ chars "|" /\
    length o = 16%nat /\ hex_value o off /\
    length cs = 16%nat /\ (forall j, (j < 16)%nat -> exists c, nth_error cs j = Some c /\ length c = 2%nat /\
      match nth_error row j with Some b => hex_value c b | None => c = chars "  " end) /\
    Forall2 (fun b c => (32 <= b <= 126 /\ c = b) \/ (~ 32 <= b <= 126 /\ c = 46)) row a.

(** The lines of a buffer, sixteen bytes on each but the last. *)
Inductive shows_bytes : Z -> list Z -> list Z -> Prop :=
| shows_none : forall off, shows_bytes off [] []
| shows_some : forall off row rest line t, row <> [] -> (length row <= 16)%nat -> (rest <> [] -> length row = 16%nat) ->
    shows_row off row line -> shows_bytes (off + 16) rest t -> shows_bytes off (row ++ rest) (line ++ [10] ++ t).

Definition buffer_of (buf : list Z) : Z -> Z := fun i => nth (Z.to_nat i) buf 0.

Definition C82_stmt : Prop := forall buf, Forall is_byte buf -> zlen buf < 2 ^ 63 ->
  exists t, hexDump (buffer_of buf) (zlen buf) = Some t /\ shows_bytes 0 buf t.

(** Two buffers with the same dump are the same. *)
Definition C82_readable_stmt : Prop := forall b1 b2 t, shows_bytes 0 b1 t -> shows_bytes 0 b2 t -> b1 = b2.

(** ** vformat *)
Lemma c_str_spec : forall text, c_string_of text (c_str (text ++ [0])).
Proof.
  induction text as [|c r (N & IH)]; cbn [app c_str].
  - change (0 =? 0) with true. split; [intros []|now left].
  - destruct (c =? 0) eqn:E.
    + split; [intros []|]. right. exists r. cbn [app]. f_equal. lia.
    + split; [intros [H|H]; [lia|now apply N]|]. destruct IH as [IH|(r' & IH)].
      * left. congruence.
      * right. exists r'. cbn [app]. congruence.
Qed.

Theorem C81_vformat : C81_stmt.
Proof.
  intros text L. exists (c_str (text ++ [0])). split; [|apply c_str_spec].
  unfold vformat. cbn [vformat_loop vsnprintf]. destruct (zlen text <? 1024) eqn:E1.
  - rewrite firstn_all2 by (unfold zlen in *; lia). reflexivity.
  - replace (zlen text + 1 <? 2 ^ 31) with true by lia. replace (zlen text <? zlen text + 1) with true by lia.
    rewrite firstn_all2 by (unfold zlen in *; lia). reflexivity.
Qed.
Print Assumptions C81_vformat.

Lemma vformat_whole : forall text, zlen text < 1024 -> Forall (fun c => c <> 0) text -> vformat text = Some text.
Proof.
  intros text L N. destruct (C81_vformat text ltac:(lia)) as (s & E & _ & [H|(r & H)]); [congruence|].
  rewrite Forall_forall in N. exfalso. apply (N 0); [|reflexivity]. rewrite H. apply in_or_app. right. now left.
Qed.

(** ** Digits *)
Lemma hex_digit_value : forall d, 0 <= d < 16 -> digit_value (hex_digit d) d.
Proof. intros d H. unfold digit_value, hex_digit. destruct (d <? 10) eqn:E; lia. Qed.

Lemma hexn_length : forall n v, length (hexn n v) = n.
Proof. induction n as [|n IH]; intro v; cbn [hexn]; [reflexivity|]. rewrite app_length, IH. cbn [length]. lia. Qed.

Lemma hexn_value : forall n v, 0 <= v < 16 ^ Z.of_nat n -> hex_value (hexn n v) v.
Proof.
  induction n as [|n IH]; intros v H; cbn [hexn].
  - change (16 ^ Z.of_nat 0) with 1 in H. replace v with 0 by lia. constructor.
  - rewrite Nat2Z.inj_succ, Z.pow_succ_r in H by lia. pattern v at 3. replace v with (16 * (v / 16) + v mod 16) by lia.
    constructor; [apply IH; lia|apply hex_digit_value; lia].
Qed.

Lemma hexn_nonzero : forall n v, Forall (fun c => c <> 0) (hexn n v).
Proof.
  induction n as [|n IH]; intro v; cbn [hexn]; [constructor|]. apply Forall_app. split; [apply IH|]. constructor; [|constructor].
  unfold hex_digit. destruct (_ <? _) eqn:E; lia.
Qed.

Lemma digit_inj : forall c v w, digit_value c v -> digit_value c w -> v = w.
Proof. unfold digit_value. intros. lia. Qed.

Lemma hex_inj : forall ds v, hex_value ds v -> forall w, hex_value ds w -> v = w.
Proof.
  intros ds v H. induction H as [|ds v c d H IH D]; intros w W.
  - inversion W as [|ds' v' c' d' H' D' E]; [reflexivity|]. symmetry in E. destruct ds'; discriminate.
  - inversion W as [E|ds' v' c' d' H' D' E]; [destruct ds; discriminate|]. apply app_inj_tail in E. destruct E as [-> ->].
    rewrite (IH _ H'), (digit_inj _ _ _ D D'). reflexivity.
Qed.

(** ** A line *)
Lemma columns_nth : forall j, (j < 16)%nat -> nth_error columns j = Some (Z.of_nat j).
Proof. intros j H. do 16 (destruct j as [|j]; [reflexivity|]). lia. Qed.

Lemma nth_error_skip : forall (A : Type) (l : list A) n j, nth_error (skipn n l) j = nth_error l (n + j).
Proof. intros A l. induction l as [|x l IH]; intros n j; [rewrite skipn_nil; destruct (n + j)%nat, j; reflexivity|]. destruct n as [|n]; [reflexivity|]. apply IH. Qed.

Lemma nth_error_first : forall (A : Type) (l : list A) n j, (j < n)%nat -> nth_error (firstn n l) j = nth_error l j.
Proof.
  intros A l. induction l as [|x l IH]; intros n j H; [now rewrite firstn_nil|]. destruct n as [|n]; [lia|]. destruct j as [|j]; [reflexivity|].
  apply IH. lia.
Qed.

Definition asc (b : Z) : Z := if isprint b then b else 46.

(** Whether the buffer goes on, and the byte. *)
Lemma buffer_at : forall buf n j, (j < 16)%nat -> let i := Z.of_nat n in
  match nth_error (firstn 16 (skipn n buf)) j with
  | Some b => (zlen buf <=? i + Z.of_nat j) = false /\ buffer_of buf (i + Z.of_nat j) = b
  | None => (zlen buf <=? i + Z.of_nat j) = true
  end.
Proof.
  intros buf n j Hj i. rewrite nth_error_first by exact Hj. rewrite nth_error_skip. unfold buffer_of, zlen, i.
  replace (Z.to_nat (Z.of_nat n + Z.of_nat j)) with (n + j)%nat by lia.
  destruct (nth_error buf (n + j)) as [b|] eqn:E.
  - split; [|now apply nth_error_nth]. assert (n + j < length buf)%nat by (apply nth_error_Some; congruence). lia.
  - apply nth_error_None in E. lia.
Qed.

Lemma c_str_stop : forall l r, Forall (fun c => c <> 0) l -> c_str (l ++ 0 :: r) = l.
Proof.
  intros l r H. induction H as [|c l Hc H IH]; cbn [app c_str]; [reflexivity|]. replace (c =? 0) with false by lia. now rewrite IH.
Qed.

Lemma list_ext : forall (A : Type) (l l' : list A), length l = length l' -> (forall j, (j < length l)%nat -> nth_error l j = nth_error l' j) -> l = l'.
Proof.
  intros A l. induction l as [|x l IH]; intros [|y l'] L H; try discriminate; [reflexivity|].
  pose proof (H 0%nat ltac:(cbn [length]; lia)) as H0. cbn [nth_error] in H0. f_equal; [congruence|].
  apply IH; [now injection L|]. intros j Hj. apply (H (S j)). cbn [length]. lia.
Qed.

Lemma ascii_row : forall buf n, map (ascii_cell (buffer_of buf) (zlen buf) (Z.of_nat n)) columns =
  map asc (firstn 16 (skipn n buf)) ++ repeat 0 (16 - length (firstn 16 (skipn n buf))).
Proof.
  intros buf n. set (row := firstn 16 (skipn n buf)). assert (LR : (length row <= 16)%nat) by apply firstn_le_length.
  apply list_ext.
  - rewrite app_length, !map_length, repeat_length. change (length columns) with 16%nat. lia.
  - intros j Hj. rewrite map_length in Hj. change (length columns) with 16%nat in Hj.
    rewrite (map_nth_error _ _ _ (columns_nth j Hj)). pose proof (buffer_at buf n j Hj) as B. cbv zeta in B. fold row in B. unfold ascii_cell.
    destruct (nth_error row j) as [b|] eqn:E.
    + destruct B as [B1 B2]. rewrite B1, B2. symmetry. rewrite nth_error_app1 by (rewrite map_length; apply nth_error_Some; congruence).
      exact (map_nth_error asc j row E).
    + rewrite B. symmetry. apply nth_error_None in E. rewrite nth_error_app2 by (rewrite map_length; lia). rewrite map_length.
      rewrite nth_error_repeat by lia. reflexivity.
Qed.

Lemma asc_nonzero : forall row, Forall (fun c => c <> 0) (map asc row).
Proof.
  intro row. induction row as [|b row IH]; cbn [map]; constructor; [|exact IH]. unfold asc, isprint. destruct (_ && _) eqn:E; lia.
Qed.

Lemma ascii_text : forall buf n, c_str (map (ascii_cell (buffer_of buf) (zlen buf) (Z.of_nat n)) columns ++ [0]) = map asc (firstn 16 (skipn n buf)).
Proof.
  intros buf n. rewrite ascii_row, <- app_assoc. destruct (16 - length (firstn 16 (skipn n buf)))%nat; cbn [repeat app]; apply c_str_stop, asc_nonzero.
Qed.

Definition line_at (buf : list Z) (n : nat) : list Z :=
  let cs := map (hex_cell (buffer_of buf) (zlen buf) (Z.of_nat n)) columns in
  hexn 16 (Z.of_nat n) ++ chars "  " ++ spaced (firstn 8 cs) ++ chars "  " ++ spaced (skipn 8 cs) ++ chars "  |" ++ map asc (firstn 16 (skipn n buf)) ++ chars "|".

Lemma dump_text_line : forall buf n, dump_text (buffer_of buf) (zlen buf) (Z.of_nat n) = line_at buf n ++ [10].
Proof.
  intros buf n. unfold dump_text, line_at. cbv zeta. rewrite ascii_text. set (h := hex_cell _ _ _). clearbody h.
  unfold columns. cbn [map firstn skipn spaced]. rewrite <- !app_assoc. reflexivity.
Qed.

Lemma cell_length : forall mem bytes i j, length (hex_cell mem bytes i j) = 2%nat.
Proof. intros. unfold hex_cell. destruct (_ <=? _); [reflexivity|apply hexn_length]. Qed.

Lemma cell_nonzero : forall mem bytes i j, Forall (fun c => c <> 0) (hex_cell mem bytes i j).
Proof. intros. unfold hex_cell. destruct (_ <=? _); [repeat constructor; lia|apply hexn_nonzero]. Qed.

Lemma line_nonzero : forall buf n, Forall (fun c => c <> 0) (line_at buf n ++ [10]).
Proof.
  intros buf n. unfold line_at. cbv zeta. pose proof (cell_nonzero (buffer_of buf) (zlen buf) (Z.of_nat n)) as C. set (h := hex_cell _ _ _) in *. clearbody h.
  unfold columns. cbn [map firstn skipn spaced]. rewrite !Forall_app. 
  repeat split; auto using hexn_nonzero, asc_nonzero; repeat constructor; cbn; lia.
Qed.

Lemma line_length : forall buf n, zlen (line_at buf n ++ [10]) < 1024.
Proof.
  intros buf n. unfold line_at. cbv zeta. pose proof (cell_length (buffer_of buf) (zlen buf) (Z.of_nat n)) as C. set (h := hex_cell _ _ _) in *. clearbody h.
  pose proof (firstn_le_length 16 (skipn n buf)) as LR. set (row := firstn 16 (skipn n buf)) in *. clearbody row.
  unfold columns, zlen. cbn [map firstn skipn spaced]. rewrite !app_length, !C, map_length, hexn_length. change (length (chars "  ")) with 2%nat. change (length (chars "  |")) with 3%nat. change (length (chars "|")) with 1%nat.
  change (length [32]) with 1%nat. change (length [10]) with 1%nat. lia.
Qed.

Lemma line_shown : forall buf n, Forall is_byte buf -> Z.of_nat n < 2 ^ 64 -> shows_row (Z.of_nat n) (firstn 16 (skipn n buf)) (line_at buf n).
Proof.
  intros buf n HB HN. unfold line_at. cbv zeta. set (cs := map _ columns). set (row := firstn 16 (skipn n buf)).
  exists (hexn 16 (Z.of_nat n)), cs, (map asc row). split; [reflexivity|]. split; [apply hexn_length|].
  split; [apply hexn_value; change (16 ^ Z.of_nat 16) with (2 ^ 64); lia|]. split; [reflexivity|]. split.
  - intros j Hj. unfold cs. rewrite (map_nth_error _ _ _ (columns_nth j Hj)). eexists. split; [reflexivity|]. split; [apply cell_length|].
    pose proof (buffer_at buf n j Hj) as B. cbv zeta in B. fold row in B. unfold hex_cell.
    destruct (nth_error row j) as [b|] eqn:E.
    + destruct B as [B1 B2]. rewrite B1, B2. apply hexn_value. change (16 ^ Z.of_nat 2) with 256.
      assert (I : In b buf). { apply nth_error_In in E. unfold row in E. rewrite <- (firstn_skipn n buf). apply in_or_app. right.
        rewrite <- (firstn_skipn 16 (skipn n buf)). apply in_or_app. now left. }
      rewrite Forall_forall in HB. specialize (HB b I). unfold is_byte in HB. lia.
    + rewrite B. reflexivity.
  - clearbody row. induction row as [|b row IH]; cbn [map]; constructor; [|exact IH]. unfold asc, isprint. destruct (_ && _) eqn:E; lia.
Qed.

(** ** All lines *)
Lemma dump_shown : forall buf, Forall is_byte buf -> zlen buf < 2 ^ 63 -> forall fuel n, (length buf - n < fuel)%nat -> (n < length buf + 16)%nat ->
  exists t, dump_loop fuel (buffer_of buf) (zlen buf) (Z.of_nat n) = Some t /\ shows_bytes (Z.of_nat n) (skipn n buf) t.
Proof.
  intros buf HB HL. induction fuel as [|fuel IH]; intros n HF HN; [lia|]. cbn [dump_loop]. destruct (Z.of_nat n <? zlen buf) eqn:E.
  - rewrite dump_text_line, (vformat_whole _ (line_length buf n) (line_nonzero buf n)).
    unfold to_u. rewrite Z.mod_small by (unfold zlen in *; lia).
    replace (Z.of_nat n + 16) with (Z.of_nat (n + 16)) by lia. unfold zlen in E.
    destruct (IH (n + 16)%nat ltac:(lia) ltac:(lia)) as (t & E1 & E2). rewrite E1. exists ((line_at buf n ++ [10]) ++ t). split; [reflexivity|].
    rewrite <- app_assoc. pose proof (firstn_skipn 16 (skipn n buf)) as FS. rewrite <- FS.
    assert (LR : length (firstn 16 (skipn n buf)) = Nat.min 16 (length buf - n)) by now rewrite firstn_length, skipn_length.
    assert (SK : skipn 16 (skipn n buf) = skipn (n + 16) buf). { apply list_ext; [rewrite !skipn_length; lia|]. intros j _. rewrite !nth_error_skip. f_equal. lia. }
    constructor.
    + intro X. rewrite X in LR. cbn [length] in LR. lia.
    + lia.
    + intro NE. rewrite LR. destruct (Nat.le_gt_cases 16 (length buf - n)) as [G|G]; [lia|]. exfalso. apply NE. rewrite SK. apply skipn_all2. lia.
    + apply line_shown; [exact HB|]. unfold zlen in HL. lia.
    + rewrite SK. replace (Z.of_nat n + 16) with (Z.of_nat (n + 16)) by lia. exact E2.
  - exists []. split; [reflexivity|]. rewrite skipn_all2 by (unfold zlen in *; lia). constructor.
Qed.

Theorem C82_hexDump : C82_stmt.
Proof.
  intros buf HB HL. unfold hexDump. destruct (dump_shown buf HB HL (S (Z.to_nat (zlen buf))) 0) as (t & E1 & E2); [unfold zlen; lia|lia|].
  exists t. split; [exact E1|exact E2].
Qed.
Print Assumptions C82_hexDump.

(** ** The dump can be read *)
Lemma app_split : forall (A : Type) (l1 l2 r1 r2 : list A), length l1 = length l2 -> l1 ++ r1 = l2 ++ r2 -> l1 = l2 /\ r1 = r2.
Proof.
  intros A l1. induction l1 as [|x l1 IH]; intros [|y l2] r1 r2 L H; try discriminate; [split; [reflexivity|exact H]|].
  injection L as L. cbn [app] in H. injection H as -> H. destruct (IH l2 r1 r2 L H) as [-> ->]. split; reflexivity.
Qed.

Lemma Forall2_len : forall A B (R : A -> B -> Prop) l l', Forall2 R l l' -> length l = length l'.
Proof. intros A B R l l' H. induction H; cbn [length]; congruence. Qed.

Definition pairs (cs : list (list Z)) : Prop := Forall (fun c => length c = 2%nat) cs.

Lemma spaced_split : forall cs ds r r', pairs cs -> pairs ds -> length cs = length ds -> spaced cs ++ r = spaced ds ++ r' -> cs = ds /\ r = r'.
Proof.
  induction cs as [|c cs IH]; intros [|d ds] r r' P Q L H; try discriminate; [split; [reflexivity|exact H]|].
  inversion P as [|? ? P1 P2]; subst. inversion Q as [|? ? Q1 Q2]; subst. injection L as L.
  destruct cs as [|c' cs]; destruct ds as [|d' ds]; try discriminate L.
  - cbn [spaced] in H. destruct (app_split _ c d r r' ltac:(congruence) H) as [-> ->]. split; reflexivity.
  - change (spaced (c :: c' :: cs)) with (c ++ [32] ++ spaced (c' :: cs)) in H. change (spaced (d :: d' :: ds)) with (d ++ [32] ++ spaced (d' :: ds)) in H.
    rewrite <- !app_assoc in H. destruct (app_split _ c d _ _ ltac:(congruence) H) as [-> H2].
    apply app_split in H2; [|reflexivity]. destruct H2 as [_ H2]. destruct (IH _ _ _ P2 Q2 L H2) as [-> ->]. split; reflexivity.
Qed.

Lemma blank_no_value : forall v, ~ hex_value (chars "  ") v.
Proof.
  intros v H. change (chars "  ") with ([32] ++ [32]) in H. inversion H as [|ds w c d H1 D E]. change [32; 32] with ([32] ++ [32]) in E. apply app_inj_tail in E. destruct E as [_ ->].
  unfold digit_value in D. lia.
Qed.

Lemma row_split : forall off1 off2 row1 row2 line1 line2 t1 t2, shows_row off1 row1 line1 -> shows_row off2 row2 line2 -> (length row1 <= 16)%nat -> (length row2 <= 16)%nat ->
  line1 ++ t1 = line2 ++ t2 -> row1 = row2 /\ t1 = t2.
Proof.
  intros off1 off2 row1 row2 line1 line2 t1 t2 (o1 & c1 & a1 & -> & O1 & _ & L1 & C1 & A1) (o2 & c2 & a2 & -> & O2 & _ & L2 & C2 & A2) R1 R2 H.
  assert (PP : forall (row : list Z) cs, length cs = 16%nat -> (forall j, (j < 16)%nat -> exists c, nth_error cs j = Some c /\ length c = 2%nat /\
      match nth_error row j with Some b => hex_value c b | None => c = chars "  " end) -> pairs cs).
  { intros row cs LC CC. apply Forall_forall. intros x Hx. apply In_nth_error in Hx. destruct Hx as [j Hj].
    assert (j < 16)%nat by (rewrite <- LC; apply nth_error_Some; congruence). destruct (CC j ltac:(lia)) as (c & E & LE & _). congruence. }
  pose proof (PP _ _ L1 C1) as P1. pose proof (PP _ _ L2 C2) as P2. clear PP.
  rewrite <- (firstn_skipn 8 c1) in P1. rewrite <- (firstn_skipn 8 c2) in P2. apply Forall_app in P1, P2. destruct P1 as [P1 P1'], P2 as [P2 P2'].
  rewrite <- !app_assoc in H. apply app_split in H; [|congruence]. destruct H as [_ H].
  apply app_split in H; [|reflexivity]. destruct H as [_ H].
  apply spaced_split in H; auto; [|rewrite !firstn_length; lia]. destruct H as [F H].
  apply app_split in H; [|reflexivity]. destruct H as [_ H].
  apply spaced_split in H; auto; [|rewrite !skipn_length; lia]. destruct H as [S H].
  apply app_split in H; [|reflexivity]. destruct H as [_ H].
  assert (CC : c1 = c2) by (rewrite <- (firstn_skipn 8 c1), <- (firstn_skipn 8 c2); congruence). subst c2.
  assert (EN : forall j, nth_error row1 j = nth_error row2 j).
  { intro j. destruct (Nat.lt_ge_cases j 16) as [Hj|Hj].
    - destruct (C1 j Hj) as (c & E & _ & V1). destruct (C2 j Hj) as (c' & E' & _ & V2). assert (c' = c) by congruence. subst c'.
      destruct (nth_error row1 j) as [x|], (nth_error row2 j) as [y|]; [f_equal; exact (hex_inj _ _ V1 _ V2)| | |reflexivity].
      + subst c. now apply blank_no_value in V1.
      + subst c. now apply blank_no_value in V2.
    - replace (nth_error row1 j) with (@None Z) by (symmetry; apply nth_error_None; lia). symmetry. apply nth_error_None. lia. }
  assert (LL : length row1 = length row2).
  { pose proof (proj2 (nth_error_None row1 (length row1)) (Nat.le_refl _)) as N1. pose proof (proj2 (nth_error_None row2 (length row2)) (Nat.le_refl _)) as N2.
    rewrite EN in N1. rewrite <- EN in N2. apply nth_error_None in N1, N2. lia. }
  split; [apply list_ext; auto|].
  apply Forall2_len in A1, A2. apply app_split in H; [|congruence]. destruct H as [_ H]. apply app_split in H; [|reflexivity]. apply H.
Qed.

Theorem C82_readable : C82_readable_stmt.
Proof.
  intros b1 b2 t H. revert b2. generalize 0. intros off b2 H2. assert (G : exists off2, shows_bytes off2 b2 t) by eauto. clear H2. destruct G as [off2 H2].
  revert H. generalize 0. intros off1 H. clear off.
  revert off2 b2 H2. induction H as [off|off row rest line t NE LE FU SR SB IH]; intros off2 b2 H2.
  - inversion H2 as [|? row' rest' line' t' N' L' F' S' B' E1 E2 E3]; [reflexivity|]. destruct line'; discriminate.
  - inversion H2 as [|? row' rest' line' t' N' L' F' S' B' E1 E2 E3]; [destruct line; discriminate|].
    subst. destruct (row_split _ _ _ _ _ _ _ _ SR S' LE L' (eq_sym E3)) as [-> E]. injection E as E. subst t'.
    f_equal. exact (IH _ _ B').
Qed.
Print Assumptions C82_readable.

(** ** Examples *)

Example C81_long : option_map zlen (vformat (repeat 65 3000)) = Some 3000 /\ vformat [72; 105; 0; 33] = Some [72; 105].
Proof. split; vm_compute; reflexivity. Qed.

Example C82_two_lines : hexDump (buffer_of (chars "Hello, world! 42" ++ [10; 0; 255])) 19 = Some
  (chars "0000000000000000  48 65 6c 6c 6f 2c 20 77  6f 72 6c 64 21 20 34 32  |Hello, world! 42|" ++ [10] ++
   chars "0000000000000010  0a 00 ff                                          |...|" ++ [10]).
Proof. vm_compute. reflexivity. Qed.

Example C82_empty : hexDump (buffer_of []) 0 = Some [].
Proof. reflexivity. Qed.
