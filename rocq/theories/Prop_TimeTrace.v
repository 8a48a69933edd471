(** C56: the time trace.  C57: readers of a time trace. *)
From Coq Require Import Permutation Sorted.
From Verif Require Import Base BaseProofs RingProofs DecodeProofs TimeTrace.
Ltac Zify.zify_post_hook ::= Z.div_mod_to_equations.

(** ** Specification *)

(** What a thread did with its buffer, and the events since its last reset. *)
Inductive op := Record_ (e : event) | Reset.
Definition run_op (b : buffer) (o : op) : buffer := match o with Record_ e => record b e | Reset => reset b end.
Definition run (h : list op) : buffer := fold_left run_op h new_buffer.
Definition log_op (l : list event) (o : op) : list event := match o with Record_ e => l ++ [e] | Reset => [] end.
Definition log (h : list op) : list event := fold_left log_op h [].

(** Events have a format. *)
Definition op_ok (o : op) : Prop := match o with Record_ e => ev_format e <> 0 /\ 0 <= ev_time e < 2 ^ 64 - 1 | Reset => True end.

(** The last events that are still there: all but one slot are used. *)
Definition recent (l : list event) : list event := skipn (length l - Z.to_nat (BUFFER_SIZE - 1)) l.
(** The time from which on no thread's events are missing. *)
Definition covered (ls : list (list event)) : Z :=
  fold_left Z.max (map (fun l => match l with [] => 0 | e :: _ => ev_time e end) ls) 0.
Fixpoint drop_old (t : Z) (l : list event) : list event :=
  match l with [] => [] | e :: r => if ev_time e <? t then drop_old t r else l end.

(** [out] takes the events of several lists, each in its order. *)
Inductive shuffle : list (list event) -> list event -> Prop :=
| sh_nil : forall ls, Forall (eq []) ls -> shuffle ls []
| sh_cons : forall a e l b out, shuffle (a ++ l :: b) out -> shuffle (a ++ (e :: l) :: b) (e :: out).

Definition in_order (l : list event) : Prop := StronglySorted (fun a b => ev_time a <= ev_time b) l.

Definition C56_stmt : Prop := forall hs, Forall (Forall op_ok) hs ->
  let logs := map (fun h => recent (log h)) hs in
  exists out, printInternal (map run hs) = (covered logs, Some out) /\
    shuffle (map (drop_old (covered logs)) logs) out /\
    (Forall in_order logs -> in_order out).

(** ** Buffers *)

Lemma size_val : BUFFER_SIZE = 8192. Proof. reflexivity. Qed.
Lemma mask : forall x, 0 <= x -> Z.land x BUFFER_MASK = x mod BUFFER_SIZE.
Proof. intros x H. change BUFFER_MASK with (Z.ones 13). rewrite Z.land_ones by lia. reflexivity. Qed.
Global Opaque BUFFER_SIZE BUFFER_MASK.

Definition SZ : nat := Z.to_nat BUFFER_SIZE.

(** A buffer that holds the end of [l]. *)
Definition holds (b : buffer) (l : list event) : Prop :=
  b_next b = zlen l mod BUFFER_SIZE /\ b_readers b = 0 /\
  (forall j e, nth_error l j = Some e -> zlen l - BUFFER_SIZE <= Z.of_nat j -> b_events b (Z.of_nat j mod BUFFER_SIZE) = e) /\
  (forall i, zlen l <= i < BUFFER_SIZE -> ev_format (b_events b i) = 0) /\
  Forall (fun e => ev_format e <> 0) l.

Lemma new_holds : holds new_buffer [].
Proof.
  unfold holds. splits; auto.
  - intros j e H. destruct j; discriminate H.
Qed.

Lemma record_holds : forall b l e, holds b l -> ev_format e <> 0 -> holds (record b e) (l ++ [e]).
Proof.
  intros b l e (N & R & E & Z0 & F) He. unfold record. rewrite R. cbn [Z.ltb Z.compare]. unfold holds. cbn [b_next b_readers b_events].
  pose proof size_val as SV. unfold zlen in *. rewrite app_length. cbn [length]. splits; auto.
  - rewrite mask by lia. rewrite N. rewrite SV. lia.
  - intros j x Hj Hl. unfold set_event. rewrite N. destruct (Z.eqb_spec (Z.of_nat j mod BUFFER_SIZE) (Z.of_nat (length l) mod BUFFER_SIZE)) as [X|X].
    + assert (j = length l). { assert (j < length (l ++ [e]))%nat by (apply nth_error_Some; congruence). rewrite app_length in *. cbn [length] in *. rewrite SV in *. lia. }
      subst j. rewrite nth_error_app2, Nat.sub_diag in Hj by lia. cbn in Hj. congruence.
    + destruct (Nat.eq_dec j (length l)) as [->|NE]; [exfalso; now apply X|].
      assert (j < length (l ++ [e]))%nat by (apply nth_error_Some; congruence). rewrite app_length in *. cbn [length] in *.
      rewrite nth_error_app1 in Hj by lia. apply E; auto. lia.
  - intros i Hi. unfold set_event. rewrite N. rewrite SV in *. destruct (Z.eqb_spec i (Z.of_nat (length l) mod 8192)); [lia|]. apply Z0. lia.
  - apply Forall_app. auto.
Qed.

Lemma clear_spec : forall fuel i f k, (forall j, i <= j < k -> ev_format (f j) <> 0) -> (k < i + Z.of_nat fuel -> ev_format (f k) = 0) -> i <= k <= i + Z.of_nat fuel ->
  forall j, ev_format (clear fuel i f j) = (if (i <=? j) && (j <? k) then 0 else ev_format (f j)).
Proof.
  induction fuel as [|n IH]; intros i f k H1 H2 H3 j; cbn [clear].
  - replace ((i <=? j) && (j <? k)) with false by lia. reflexivity.
  - destruct (Z.eqb_spec (ev_format (f i)) 0) as [E|E].
    + destruct (Z.eq_dec i k) as [->|NE]; [|exfalso; apply (H1 i); [lia|auto]]. replace ((k <=? j) && (j <? k)) with false by lia. reflexivity.
    + destruct (Z.eq_dec i k) as [->|NE]; [exfalso; apply E, H2; lia|].
      rewrite (IH (i + 1) _ k).
      * unfold set_event. destruct (Z.eqb_spec j i) as [->|NJ].
        { cbn [ev_format]. replace ((i + 1 <=? i) && (i <? k)) with false by lia. replace ((i <=? i) && (i <? k)) with true by lia. reflexivity. }
        { replace (i + 1 <=? j) with (i <=? j) by lia. reflexivity. }
      * intros x Hx. unfold set_event. replace (x =? i) with false by lia. apply H1. lia.
      * intro K. unfold set_event. replace (k =? i) with false by lia. apply H2. lia.
      * lia.
Qed.

Lemma reset_holds : forall b l, holds b l -> holds (reset b) [].
Proof.
  intros b l (N & R & E & Z0 & F). unfold reset, holds. cbn [b_next b_readers b_events]. pose proof size_val as SV. splits; auto.
  - intros j e H. destruct j; discriminate H.
  - intros i Hi. cbn in Hi. rewrite (clear_spec (Z.to_nat BUFFER_SIZE) 0 (b_events b) (Z.min (zlen l) BUFFER_SIZE)).
    + destruct (Z_lt_le_dec i (zlen l)) as [L|L]; [replace ((0 <=? i) && (i <? Z.min (zlen l) BUFFER_SIZE)) with true by lia; reflexivity|].
      replace ((0 <=? i) && (i <? Z.min (zlen l) BUFFER_SIZE)) with false by lia. apply Z0. lia.
    + intros j Hj.
      (* the last index of l that is j modulo the size *)
      assert (X : exists k, (k < length l)%nat /\ zlen l - BUFFER_SIZE <= Z.of_nat k /\ Z.of_nat k mod BUFFER_SIZE = j).
      { unfold zlen in *. destruct (Z_lt_le_dec (Z.of_nat (length l)) BUFFER_SIZE) as [L|L].
        - exists (Z.to_nat j). rewrite Z2Nat.id by lia. splits; try lia.
        - exists (Z.to_nat (Z.of_nat (length l) - BUFFER_SIZE + (j - (Z.of_nat (length l) - BUFFER_SIZE)) mod BUFFER_SIZE)). rewrite SV in *. splits; lia. }
      destruct X as (k & K1 & K2 & K3). destruct (nth_error l k) as [e|] eqn:EK; [|apply nth_error_None in EK; lia].
      rewrite <- K3, (E k e EK K2). rewrite Forall_forall in F. apply F. eapply nth_error_In. exact EK.
    + intro K. apply Z0. lia.
    + unfold zlen. lia.
Qed.

Lemma run_holds : forall h, Forall op_ok h -> holds (run h) (log h).
Proof.
  assert (G : forall h b l, Forall op_ok h -> holds b l -> holds (fold_left run_op h b) (fold_left log_op h l)).
  { induction h as [|o h IH]; intros b l O H; [exact H|]. inversion O as [|? ? O1 O2]; subst. cbn [fold_left]. apply IH; auto. destruct o as [e|]; cbn [run_op log_op]; [apply record_holds; auto; apply O1|eapply reset_holds; eauto]. }
  intros h O. apply G; auto. apply new_holds.
Qed.

(** The position [j] of the log is the index [c] of the buffer, and can still be
    read. *)
Definition at_ (b : buffer) (l : list event) (c : Z) (j : nat) : Prop :=
  holds b l /\ c = Z.of_nat j mod BUFFER_SIZE /\ (j <= length l)%nat /\ zlen l - (BUFFER_SIZE - 1) <= Z.of_nat j.

Lemma at_end : forall b l c j, at_ b l c j -> (c =? b_next b) = Nat.eqb j (length l).
Proof.
  intros b l c j ((N & _) & C & L & K). pose proof size_val as SV. unfold zlen in *. rewrite N, C. rewrite SV in *.
  destruct (Z.eqb_spec (Z.of_nat j mod 8192) (Z.of_nat (length l) mod 8192)); destruct (Nat.eqb_spec j (length l)); try reflexivity; exfalso; subst; lia.
Qed.
Lemma at_here : forall b l c j e, at_ b l c j -> nth_error l j = Some e -> b_events b c = e /\ present b c = true.
Proof.
  intros b l c j e ((N & R & E & Z0 & F) & C & L & K) H. assert (X : b_events b c = e) by (rewrite C; apply E; auto; lia). split; auto. unfold present. rewrite X.
  rewrite Forall_forall in F. specialize (F e (nth_error_In _ _ H)). apply Z.eqb_neq in F. now rewrite F.
Qed.
Lemma at_next : forall b l c j, at_ b l c j -> (j < length l)%nat -> at_ b l (next c) (S j).
Proof.
  intros b l c j (H & C & L & K) J. pose proof size_val as SV. unfold at_, next. splits; auto; [|lia]. rewrite C, SV. lia.
Qed.

Lemma oldest_at : forall b l, holds b l -> at_ b l (oldest b) (length l - Z.to_nat (BUFFER_SIZE - 1)).
Proof.
  intros b l H. pose proof size_val as SV. unfold at_. splits; auto; try (unfold zlen; lia). unfold oldest, next. pose proof H as (N & R & E & Z0 & F). rewrite N. unfold zlen in *.
  destruct (Z_lt_le_dec (Z.of_nat (length l)) (BUFFER_SIZE - 1)) as [L|L].
  - unfold present. rewrite (Z0 ((Z.of_nat (length l) mod BUFFER_SIZE + 1) mod BUFFER_SIZE)) by (rewrite SV in *; lia). cbn [Z.eqb negb]. rewrite SV in *. replace (length l - Z.to_nat (8192 - 1))%nat with O by lia. reflexivity.
  - set (j := (length l - Z.to_nat (BUFFER_SIZE - 1))%nat). assert (J : (Z.of_nat (length l) mod BUFFER_SIZE + 1) mod BUFFER_SIZE = Z.of_nat j mod BUFFER_SIZE) by (unfold j; rewrite SV in *; lia).
    rewrite J. unfold present. destruct (nth_error l j) as [e|] eqn:EJ; [|apply nth_error_None in EJ; unfold j in EJ; rewrite SV in *; lia].
    rewrite (E j e EJ) by (unfold j; rewrite SV in *; lia). rewrite Forall_forall in F. specialize (F e (nth_error_In _ _ EJ)). apply Z.eqb_neq in F. rewrite F. reflexivity.
Qed.

(** ** Skipping and merging *)

Lemma skipn_cons : forall (l : list event) j e, nth_error l j = Some e -> skipn j l = e :: skipn (S j) l.
Proof. induction l as [|x l IH]; intros [|j] e H; try discriminate H. { now apply some_inj in H; subst. } cbn [skipn]. now apply IH. Qed.

Lemma skip_at : forall fuel b l t c j, at_ b l c j -> (length l - j <= fuel)%nat ->
  exists k, at_ b l (skip_old fuel b t c) k /\ skipn k l = drop_old t (skipn j l).
Proof.
  induction fuel as [|f IH]; intros b l t c j A L; cbn [skip_old].
  - exists j. split; auto. pose proof A as (_ & _ & J & _). rewrite skipn_all2 by lia. reflexivity.
  - rewrite (at_end _ _ _ _ A). destruct (nth_error l j) as [e|] eqn:E.
    + assert (J : (j < length l)%nat) by (apply nth_error_Some; congruence).
      destruct (at_here _ _ _ _ _ A E) as (X1 & X2). rewrite X2, X1. rewrite (skipn_cons _ _ _ E). cbn [drop_old andb].
      replace (Nat.eqb j (length l)) with false by (symmetry; apply Nat.eqb_neq; lia). cbn [negb]. rewrite Bool.andb_true_r. destruct (ev_time e <? t).
      * apply IH; [now apply at_next|lia].
      * exists j. split; auto. now apply skipn_cons.
    + pose proof A as (_ & _ & J & _). apply nth_error_None in E. replace (Nat.eqb j (length l)) with true by (symmetry; apply Nat.eqb_eq; lia). cbn [negb]. rewrite Bool.andb_false_r.
      exists j. split; auto. rewrite skipn_all2 by lia. reflexivity.
Qed.

(** The state of the merge: per buffer what is left. *)
Definition left_ (bc : buffer * Z) (r : list event) : Prop := exists l j, at_ (fst bc) l (snd bc) j /\ r = skipn j l.

Lemma left_nil : forall b c, left_ (b, c) [] -> (c =? b_next b) = true.
Proof.
  intros b c (l & j & A & R). cbn [fst snd] in A. rewrite (at_end _ _ _ _ A). pose proof A as (_ & _ & J & _). apply (f_equal (@length event)) in R. rewrite skipn_length in R. cbn in R. apply Nat.eqb_eq. lia.
Qed.
Lemma left_cons : forall b c e r, left_ (b, c) (e :: r) -> (c =? b_next b) = false /\ present b c = true /\ b_events b c = e /\ left_ (b, next c) r.
Proof.
  intros b c e r (l & j & A & R). cbn [fst snd] in A. destruct (nth_error l j) as [x|] eqn:E.
  - rewrite (skipn_cons _ _ _ E) in R. injection R as <- ->. assert (J : (j < length l)%nat) by (apply nth_error_Some; congruence).
    rewrite (at_end _ _ _ _ A). destruct (at_here _ _ _ _ _ A E) as (X1 & X2). splits; auto; [apply Nat.eqb_neq; lia|]. exists l, (S j). split; auto. cbn [fst snd]. now apply at_next.
  - apply nth_error_None in E. rewrite skipn_all2 in R by lia. discriminate R.
Qed.

Definition good (l : list event) : Prop := Forall (fun e => 0 <= ev_time e < 2 ^ 64 - 1) l.

(** The choice of the earliest event. *)
Lemma earliest_spec : forall bs rs, Forall2 left_ bs rs -> forall i cur t,
  (earliest i bs cur t = cur /\ Forall (fun r => match r with [] => True | e :: _ => t <= ev_time e end) rs) \/
  (exists a e r b, rs = a ++ (e :: r) :: b /\ earliest i bs cur t = Some (i + length a)%nat /\ ev_time e < t /\
     Forall (fun r => match r with [] => True | x :: _ => ev_time e <= ev_time x end) rs).
Proof.
  induction 1 as [|[b c] r bs rs H HF IH]; intros i cur t; cbn [earliest].
  - left. auto.
  - destruct r as [|e r].
    + rewrite (left_nil _ _ H). cbn [negb andb]. destruct (IH (S i) cur t) as [(E & F)|(a & e & r & b' & E & G & L & F)].
      * left. auto.
      * right. exists ([] :: a), e, r, b'. subst rs. splits; auto. { rewrite G. f_equal. cbn [length]. lia. }
    + destruct (left_cons _ _ _ _ H) as (X1 & X2 & X3 & _). rewrite X1, X2, X3. cbn [negb andb]. destruct (Z.ltb_spec (ev_time e) t) as [L|L].
      * destruct (IH (S i) (Some i) (ev_time e)) as [(E & F)|(a & e' & r' & b' & E & G & L' & F)].
        { right. exists [], e, r, rs. splits; auto. { rewrite E. f_equal. cbn. lia. } constructor; auto. lia. }
        { right. exists ((e :: r) :: a), e', r', b'. subst rs. splits; auto; try lia. { rewrite G. f_equal. cbn [length]. lia. } constructor; auto. lia. }
      * destruct (IH (S i) cur t) as [(E & F)|(a & e' & r' & b' & E & G & L' & F)].
        { left. split; auto. }
        { right. exists ((e :: r) :: a), e', r', b'. subst rs. splits; auto. { rewrite G. f_equal. cbn [length]. lia. } constructor; auto. lia. }
Qed.

Lemma advance_app : forall a b c r, advance (length a) (a ++ (b, c) :: r) = a ++ (b, next c) :: r.
Proof. induction a as [|[x y] a IH]; intros b c r; cbn [length app advance]; [reflexivity|]. now rewrite IH. Qed.

Lemma forall2_split : forall (bs : list (buffer * Z)) a x b, Forall2 left_ bs (a ++ x :: b) ->
  exists a' y b', bs = a' ++ y :: b' /\ length a' = length a /\ Forall2 left_ a' a /\ left_ y x /\ Forall2 left_ b' b.
Proof.
  intros bs a. revert bs. induction a as [|z a IH]; intros bs x b H; cbn [app] in H; inversion H as [|y ? bs' ? H1 H2]; subst.
  - exists [], y, bs'. splits; auto.
  - destruct (IH _ _ _ H2) as (a' & y' & b' & -> & L & F1 & F2 & F3). exists (y :: a'), y', b'. splits; auto. cbn [length]. now rewrite L.
Qed.

Definition total (rs : list (list event)) : nat := length (concat rs).

Lemma merge_spec : forall fuel bs rs, Forall2 left_ bs rs -> Forall good rs -> (total rs < fuel)%nat ->
  exists out, merge fuel bs = Some out /\ shuffle rs out /\
    (Forall in_order rs -> in_order out).
Proof.
  induction fuel as [|f IH]; intros bs rs H G T; [lia|]. cbn [merge].
  destruct (earliest_spec bs rs H 0 None (2 ^ 64 - 1)) as [(E & F)|(a & e & r & b & E & K & L & F)].
  - rewrite E. exists []. splits; auto.
    + apply sh_nil. rewrite Forall_forall in *. intros x Hx. specialize (F x Hx). specialize (G x Hx). destruct x as [|e x]; auto. inversion G; subst. lia.
    + intros _. constructor.
  - rewrite K. subst rs. destruct (forall2_split _ _ _ _ H) as (a' & (bb & c) & b' & -> & LA & F1 & F2 & F3).
    cbn [plus]. rewrite <- LA. rewrite nth_error_app2, Nat.sub_diag by lia. cbn [nth_error]. rewrite advance_app.
    destruct (left_cons _ _ _ _ F2) as (_ & _ & X & LN).
    destruct (IH (a' ++ (bb, next c) :: b') (a ++ r :: b)) as (out & M & S & O).
    + apply Forall2_app; auto.
    + apply Forall_app in G. destruct G as (G1 & G2). inversion G2 as [|? ? G3 G4]; subst. inversion G3; subst. apply Forall_app. split; auto.
    + unfold total in *. rewrite concat_app, app_length in *. cbn [concat] in *. rewrite app_length in *. cbn [length] in T. lia.
    + rewrite M, X. clear X. exists (e :: out). cbn [option_map]. splits; auto.
      * now constructor.
      * intro IO. apply Forall_app in IO. destruct IO as (I1 & I2). inversion I2 as [|? ? I3 I4]; subst. inversion I3 as [|? ? I5 I6]; subst.
        constructor. { apply O. apply Forall_app. split; auto. }
        assert (B : forall x, In x (concat (a ++ r :: b)) -> ev_time e <= ev_time x).
        { intros x Hx. rewrite concat_app in Hx. apply in_app_or in Hx.
          assert (Q : forall l, In l (a ++ (e :: r) :: b) -> in_order l -> In x l -> ev_time e <= ev_time x).
          { intros l Hl Il Hx'. rewrite Forall_forall in F. specialize (F l Hl). destruct l as [|y l]; [contradiction|]. inversion Il as [|? ? Y1 Y2]; subst. destruct Hx' as [->|Hx']; [exact F|]. rewrite Forall_forall in Y2. specialize (Y2 x Hx'). lia. }
          cbn [concat] in Hx. rewrite Forall_forall in I1, I4. destruct Hx as [Hx|Hx].
          - apply in_concat in Hx. destruct Hx as (l & Hl & Hx). apply (Q l); auto. apply in_or_app. auto.
          - apply in_app_or in Hx. destruct Hx as [Hx|Hx].
            + rewrite Forall_forall in I6. auto.
            + apply in_concat in Hx. destruct Hx as (l & Hl & Hx). apply (Q l); auto. apply in_or_app. right. right. auto. }
        assert (P : forall ls o, shuffle ls o -> forall x, In x o -> In x (concat ls)).
        { clear. induction 1 as [|a e l b out S IH]; intros x Hx; [contradiction|]. rewrite concat_app in *. cbn [concat] in *. destruct Hx as [->|Hx].
          - apply in_or_app. right. left. reflexivity.
          - specialize (IH x Hx). apply in_app_or in IH. apply in_or_app. destruct IH as [IH|IH]; auto. right. right. exact IH. }
        rewrite Forall_forall. intros x Hx. apply B. eapply P; eauto.
Qed.

(** ** The theorem *)

Lemma log_good : forall h, Forall op_ok h -> good (log h).
Proof.
  assert (G : forall h l, Forall op_ok h -> good l -> good (fold_left log_op h l)).
  { induction h as [|o h IH]; intros l O H; [exact H|]. inversion O as [|? ? O1 O2]; subst. cbn [fold_left]. apply IH; auto. destruct o as [e|]; cbn [log_op]; [|constructor]. apply Forall_app. split; auto. constructor; auto. apply O1. }
  intros h O. apply G; auto. constructor.
Qed.
Lemma good_skipn : forall n l, good l -> good (skipn n l).
Proof. intros n l G. unfold good in *. rewrite Forall_forall in *. intros x Hx. apply G. rewrite <- (firstn_skipn n l). apply in_or_app. auto. Qed.
Lemma good_drop : forall t l, good l -> good (drop_old t l).
Proof. induction l as [|e l IH]; intro G; cbn [drop_old]; auto. destruct (ev_time e <? t); auto. apply IH. now inversion G. Qed.
Lemma order_drop : forall t l, in_order l -> in_order (drop_old t l).
Proof. induction l as [|e l IH]; intro G; cbn [drop_old]; auto. destruct (ev_time e <? t); auto. apply IH. now inversion G. Qed.
Lemma drop_length : forall t l, (length (drop_old t l) <= length l)%nat.
Proof. induction l as [|e l IH]; cbn [drop_old]; auto. destruct (ev_time e <? t); cbn [length]; lia. Qed.

Lemma start_spec : forall bs rs, Forall2 left_ bs rs -> Forall (fun bc => fst bc = fst bc) bs -> forall t, 0 <= t ->
  (forall b c, In (b, c) bs -> left_ (b, c) [] -> present b c = false) ->
  start_time bs t = fold_left Z.max (map (fun l => match l with [] => 0 | e :: _ => ev_time e end) rs) t.
Proof.
  induction 1 as [|[b c] r bs rs H HF IH]; intros _ t Ht N; cbn [start_time map fold_left]; [reflexivity|].
  assert (N' : forall b c, In (b, c) bs -> left_ (b, c) [] -> present b c = false) by (intros; apply N; [right|]; auto).
  destruct r as [|e r].
  - rewrite (N b c) by (try (left; reflexivity); auto). cbn [andb]. rewrite Z.max_l by lia. apply IH; auto. now apply Forall_forall.
  - destruct (left_cons _ _ _ _ H) as (_ & X2 & X3 & _). rewrite X2, X3. cbn [andb].
    replace (if t <? ev_time e then ev_time e else t) with (Z.max t (ev_time e)) by (destruct (Z.ltb_spec t (ev_time e)); lia).
    apply IH; auto; [now apply Forall_forall|lia].
Qed.

Lemma oldest_left : forall h, Forall op_ok h -> left_ (run h, oldest (run h)) (recent (log h)).
Proof. intros h O. exists (log h), (length (log h) - Z.to_nat (BUFFER_SIZE - 1))%nat. split; [|reflexivity]. apply oldest_at. now apply run_holds. Qed.

Lemma oldest_none : forall h, Forall op_ok h -> left_ (run h, oldest (run h)) [] -> present (run h) (oldest (run h)) = false.
Proof.
  intros h O H. pose proof (run_holds h O) as R. pose proof (left_nil _ _ H) as E. pose proof (at_end _ _ _ _ (oldest_at _ _ R)) as E'. rewrite E in E'. symmetry in E'. apply Nat.eqb_eq in E'.
  pose proof size_val as SV. assert (Z : length (log h) = 0%nat) by (rewrite SV in E'; lia).
  destruct R as (N & _ & _ & Z0 & _). apply Z.eqb_eq in E. rewrite E, N. unfold present, zlen. rewrite Z. rewrite SV. cbn. rewrite Z0; [reflexivity|]. unfold zlen. rewrite Z, SV. lia.
Qed.

Theorem C56_trace : C56_stmt.
Proof.
  intros hs O logs. pose proof size_val as SV.
  set (bs := map (fun b => (b, oldest b)) (map run hs)).
  assert (B : Forall2 left_ bs logs).
  { unfold bs, logs. clear - O. induction O as [|h hs O1 O2 IH]; cbn [map]; constructor; auto. now apply oldest_left. }
  assert (ST : start_time bs 0 = covered logs).
  { apply start_spec; auto; [now apply Forall_forall|lia|]. intros b c I. unfold bs in I. apply in_map_iff in I. destruct I as (b' & I1 & I2). injection I1 as -> <-. apply in_map_iff in I2. destruct I2 as (h & <- & Hh). apply oldest_none. rewrite Forall_forall in O. auto. }
  unfold printInternal. fold bs. cbv zeta. rewrite ST. set (t := covered logs).
  assert (RL : forall h, (length (recent (log h)) <= Z.to_nat (BUFFER_SIZE - 1))%nat) by (intro h; unfold recent; rewrite skipn_length; lia).
  assert (B' : Forall2 left_ (map (fun '(b, c) => (b, skip_old (Z.to_nat BUFFER_SIZE) b t c)) bs) (map (drop_old t) logs)).
  { unfold bs, logs. clearbody t. clear - O SV RL. induction O as [|h hs O1 O2 IH]; cbn [map]; constructor; auto.
    pose proof (oldest_at _ _ (run_holds h O1)) as A. specialize (RL h). unfold recent in RL. rewrite skipn_length in RL.
    destruct (skip_at (Z.to_nat BUFFER_SIZE) _ _ t _ _ A) as (k & A' & K); [lia|]. exists (log h), k. split; auto. }
  assert (GL : Forall good logs).
  { unfold logs. rewrite Forall_forall in *. intros l Hl. apply in_map_iff in Hl. destruct Hl as (h & <- & Hh). apply good_skipn, log_good. auto. }
  destruct (merge_spec (S (length (map run hs) * Z.to_nat BUFFER_SIZE)) _ _ B') as (out & M & S & I).
  - rewrite Forall_forall in *. intros l Hl. apply in_map_iff in Hl. destruct Hl as (r & <- & Hr). apply good_drop. auto.
  - rewrite map_length. unfold logs, total. clearbody t. clear - RL SV. induction hs as [|h hs IH]; cbn [map concat length]; [lia|].
    rewrite app_length. specialize (RL h). pose proof (drop_length t (recent (log h))). lia.
  - exists out. splits; auto.
    + now rewrite M.
    + intro IO. apply I. rewrite Forall_forall in *. intros l Hl. apply in_map_iff in Hl. destruct Hl as (r & <- & Hr). apply order_drop. auto.
Qed.
Print Assumptions C56_trace.

Definition ev (t n : Z) : event := Event t n [].
Definition h1 : list op := [Record_ (ev 1 70); Reset; Record_ (ev 10 1); Record_ (ev 30 2); Record_ (ev 50 3)].
Definition h2 : list op := [Record_ (ev 20 4); Record_ (ev 30 5); Record_ (ev 40 6)].
Example C56_instance : Forall (Forall op_ok) [h1; h2; []] /\
  printInternal (map run [h1; h2; []]) = (20, Some [ev 20 4; ev 30 2; ev 30 5; ev 40 6; ev 50 3]).
Proof.
  split; [|vm_compute; reflexivity].
  repeat constructor; cbn; lia.
Qed.

(** ** C57: readers *)

(** Nothing is recorded while a trace is printed (TimeTrace.h:169-172, .cc:128-130
    and 217-219): in the state that printInternal sets up, an event changes nothing. *)
Definition C57_full : Prop := forall h e, Forall op_ok h -> op_ok (Record_ e) -> record (begin_read (run h)) e = begin_read (run h).

Theorem C57_refuted : ~ C57_full.
Proof.
  intro H. specialize (H [] (ev 5 1) (Forall_nil _)). assert (O : op_ok (Record_ (ev 5 1))) by (cbn; lia). specialize (H O).
  apply (f_equal b_next) in H. vm_compute in H. discriminate H.
Qed.
Print Assumptions C57_refuted.

(** What holds: the number of readers is 0 before, during and after printing, so
    that every event goes into its buffer, and a buffer that no thread records in
    meanwhile is left as it was. *)
Theorem C57_partial : forall h e, Forall op_ok h ->
  b_readers (run h) = 0 /\ begin_read (run h) = run h /\ end_read (begin_read (run h)) = run h /\
  record (begin_read (run h)) e = run (h ++ [Record_ e]).
Proof.
  intros h e O. pose proof (run_holds h O) as (_ & R & _). unfold begin_read, end_read. rewrite R. change (Z.land 0 1) with 0. cbn [b_next b_readers b_events]. change (Z.land 0 (-1)) with 0.
  assert (E : Buffer (b_next (run h)) 0 (b_events (run h)) = run h) by (rewrite <- R; now destruct (run h)).
  rewrite E. splits; auto. unfold run. now rewrite fold_left_app.
Qed.
Print Assumptions C57_partial.
