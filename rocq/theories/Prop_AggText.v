(** C86: the text of the decompressor's aggregation. *)
From Coq Require Import QArith Qabs Qround Lqa.
From Verif Require Import Base BaseProofs RingProofs DecodeProofs Chars Fmt Preproc PreprocProofs TimeFmt TimeProofs Prop_TimeOrder LineFmt LineProofs Prop_TraceText LogMsg Stats RcdfText Prop_RcdfText AggText.
Open Scope Z_scope.
Ltac Zify.zify_post_hook ::= Z.div_mod_to_equations.

(** ** Specification *)

(** An integer in decimal. *)
Definition integer (txt : list Z) (v : Z) : Prop :=
  exists ds, ds <> [] /\ Forall is_digit ds /\ ((0 <= v /\ txt = ds /\ dec_val ds = v) \/ (v < 0 /\ txt = 45 :: ds /\ dec_val ds = - v)).

(** [v] is [x] up to half a unit of the second decimal and the precision of doubles. *)
Definition two_decimals (txt : list Z) (x : Q) : Prop :=
  exists v, number 2 0 txt v /\ (Qabs (v - x) <= (1 # 200) + x * (1 # 2 ^ 50))%Q.

Definition C86_stmt : Prop := forall filterId ms r time, minMaxMean filterId ms = Some r -> zlen ms <= 2 ^ 53 -> (0 <= time)%Q ->
  exists L C P Mi Ma Me To Ti A, agg_text r time =
      chars "Logs Encountered: " ++ L ++ [13; 10] ++ chars "Matching Logs: " ++ C ++ chars " (" ++ P ++ chars "%)" ++ [13; 10] ++
      chars "Min: " ++ Mi ++ [13; 10] ++ chars "Max: " ++ Ma ++ [13; 10] ++ chars "Mean: " ++ Me ++ [13; 10] ++ chars "Total: " ++ To ++ [13; 10] ++ [13; 10] ++
      chars "The aggregation took " ++ Ti ++ chars " seconds over " ++ C ++ chars " elements (" ++ A ++ chars " ns avg)" ++ [13; 10] /\
    rp_logs r = zlen ms /\ integer L (zlen ms) /\ integer C (rp_count r) /\ integer Mi (rp_min r) /\ integer Ma (rp_max r) /\ integer Me (rp_mean r) /\ integer To (rp_total r) /\
    0 < rp_count r <= zlen ms /\
    two_decimals P (100 * inject_Z (rp_count r) / inject_Z (zlen ms))%Q /\ two_decimals Ti time /\ two_decimals A (1000000000 * time / inject_Z (rp_count r))%Q.

(** ** Proof *)
Lemma signed_integer : forall n, integer (signed_str n) n.
Proof.
  intro n. unfold signed_str. destruct (n <? 0) eqn:E.
  - destruct (dec_str_spec (- n) ltac:(lia)) as (A & B & C). exists (dec_str (- n)). split; [exact A|]. split; [exact B|]. right. split; [lia|]. split; [reflexivity|exact C].
  - destruct (dec_str_spec n ltac:(lia)) as (A & B & C). exists (dec_str n). split; [exact A|]. split; [exact B|]. left. split; [lia|]. split; [reflexivity|exact C].
Qed.

Lemma step_counts : forall id s a a', agg_step id s a = Some a' -> ag_logs a' = to_u 64 (ag_logs a + 1) /\ ag_count a <= ag_count a' <= ag_count a + 1.
Proof.
  intros id s a a' H. unfold agg_step in H. destruct (negb _); [injection H as <-; cbn [ag_logs ag_count]; split; [reflexivity|lia]|].
  destruct (lm_get s 0 4); [|discriminate H]. cbv zeta in H. match type of H with (if ?b then _ else _) = _ => destruct b; [|discriminate H] end.
  injection H as <-. cbn [ag_logs ag_count]. split; [reflexivity|lia].
Qed.

Lemma loop_counts : forall id ms s a a', agg_loop id ms s a = Some a' -> 0 <= ag_logs a -> ag_logs a + zlen ms < 2 ^ 64 ->
  ag_logs a' = ag_logs a + zlen ms /\ ag_count a <= ag_count a' <= ag_count a + zlen ms.
Proof.
  intros id. induction ms as [|m ms IH]; intros s a a' H L0 L1; cbn [agg_loop] in H; [injection H as <-; cbn; lia|].
  rewrite zlen_cons in *. pose proof (zlen_nonneg _ ms). destruct (lm_run s (em_ops m)) as [s'|]; [|discriminate H]. destruct (agg_step id s' a) as [a1|] eqn:E; [|discriminate H].
  apply step_counts in E. destruct E as [E1 E2]. assert (E3 : ag_logs a1 = ag_logs a + 1) by (rewrite E1; unfold to_u; lia).
  destruct (IH _ _ _ H) as [F1 F2]; [lia|lia|]. lia.
Qed.

Lemma report_counts : forall id ms r, minMaxMean id ms = Some r -> zlen ms <= 2 ^ 53 -> rp_logs r = zlen ms /\ 0 < rp_count r <= zlen ms.
Proof.
  intros id ms r H L. unfold minMaxMean in H. destruct (agg_loop id ms lm_init agg_init) as [a|] eqn:E; [|discriminate H].
  pose proof (zlen_nonneg _ ms). destruct (loop_counts _ _ _ _ _ E) as [F1 F2]; [cbn; lia|cbn [ag_logs agg_init]; lia|]. cbn [ag_logs ag_count agg_init] in F1, F2.
  destruct (ag_count a =? 0) eqn:Z0; [discriminate H|]. injection H as <-. cbn [rp_logs rp_count]. lia.
Qed.

Open Scope Q_scope.

(** A quotient of doubles, the divisor an integer. *)
Lemma ratio_close : forall a n, 0 <= a -> (0 < n <= 2 ^ 53)%Z -> let q := rnd (rnd a / rnd (inject_Z n)) in
  0 <= q /\ Qabs (q - a / inject_Z n) <= a / inject_Z n * (4 * eps).
Proof.
  intros a n A N q. pose proof (small_exact n ltac:(lia)) as EN.
  assert (N0 : 0 < inject_Z n) by (change 0 with (inject_Z 0); rewrite <- Zlt_Qlt; lia).
  assert (IV : 0 <= / inject_Z n) by (apply Qlt_le_weak, Qinv_lt_0_compat, N0).
  assert (X0 : 0 <= a / inject_Z n) by (unfold Qdiv; now apply Qmult_le_0_compat).
  pose proof (rnd_err a) as E1. apply (rel_scale _ _ _ (/ inject_Z n) IV) in E1. fold (rnd a / inject_Z n) in E1. fold (a / inject_Z n) in E1.
  set (y := rnd a / rnd (inject_Z n)) in *. assert (EY : rnd a / inject_Z n == y) by (unfold y; rewrite EN; reflexivity). rewrite EY in E1.
  apply rnd_again in E1; [|unfold eps; discriminate|unfold eps; discriminate]. fold q in E1. rewrite (Qabs_pos _ X0) in E1. split.
  - unfold q. apply rnd_pos. rewrite <- EY. unfold Qdiv. apply Qmult_le_0_compat; [now apply rnd_pos|exact IV].
  - eapply Qle_trans; [exact E1|]. rewrite !(Qmult_comm (a / inject_Z n)). apply Qmult_le_compat_r; [vm_compute; discriminate|exact X0].
Qed.

Lemma shown_two : forall q x, 0 <= q -> 0 <= x -> Qabs (q - x) <= x * (4 * eps) -> two_decimals (fixedp 2 0 q) x.
Proof.
  intros q x Q0 X0 H. destruct (fixedp_number 2 0 q (Nat.lt_0_succ 1) Q0) as (v & V1 & V2). exists v. split; [exact V1|].
  change ((1 # 2) / inject_Z (10 ^ Z.of_nat 2)) with (1 # 200) in V2. assert (E : (1 # 2 ^ 50) == 8 * eps) by reflexivity. rewrite E.
  assert (EP : 0 <= eps) by discriminate. pose proof (Qmult_le_0_compat _ _ X0 EP) as XE. generalize dependent eps. intros ep. intros.
  setoid_replace (v - x) with ((v - q) + (q - x)) by ring. eapply Qle_trans; [apply Qabs_triangle|]. lra.
Qed.

Lemma two_eq : forall t x y, x == y -> two_decimals t x -> two_decimals t y.
Proof. intros t x y E (v & V1 & V2). exists v. split; [exact V1|]. rewrite E in V2. exact V2. Qed.

Open Scope Z_scope.

Theorem C86_text : C86_stmt.
Proof.
  intros filterId ms r time H L T. destruct (report_counts _ _ _ H L) as [LG CT].
  exists (dec_str (rp_logs r)), (signed_str (rp_count r)), (fixedp 2 0 (percentage (rp_count r) (rp_logs r))), (signed_str (rp_min r)), (signed_str (rp_max r)),
    (signed_str (rp_mean r)), (signed_str (rp_total r)), (fixedp 2 0 time), (fixedp 2 0 (per_element time (rp_count r))).
  split; [reflexivity|]. split; [exact LG|]. split.
  { rewrite LG. destruct (dec_str_spec (zlen ms) ltac:(lia)) as (A & B & C). exists (dec_str (zlen ms)). split; [exact A|]. split; [exact B|]. left. split; [lia|]. split; [reflexivity|exact C]. }
  do 5 (split; [apply signed_integer|]). split; [exact CT|]. rewrite LG. set (c := rp_count r) in *. set (n := zlen ms) in *.
  assert (C0 : (0 <= inject_Z c)%Q) by (change 0%Q with (inject_Z 0); rewrite <- Zle_Qle; lia).
  assert (N0 : (0 < inject_Z n)%Q) by (change 0%Q with (inject_Z 0); rewrite <- Zlt_Qlt; lia).
  assert (C1 : (0 < inject_Z c)%Q) by (change 0%Q with (inject_Z 0); rewrite <- Zlt_Qlt; lia).
  split; [|split].
  - pose proof (small_exact c ltac:(lia)) as EC.
    apply (two_eq _ (100 * rnd (inject_Z c) / inject_Z n)); [rewrite EC; reflexivity|]. unfold percentage.
    assert (A0 : (0 <= 100 * rnd (inject_Z c))%Q) by (rewrite EC; lra). destruct (ratio_close _ n A0 ltac:(lia)) as [Q1 Q2].
    apply shown_two; [exact Q1| |exact Q2]. apply Qle_shift_div_l; [exact N0|]. lra.
  - apply shown_two; [exact T|exact T|]. setoid_replace (time - time)%Q with 0%Q by ring. change (Qabs 0) with 0%Q. apply Qmult_le_0_compat; [exact T|discriminate].
  - unfold per_element. assert (A0 : (0 <= 1000000000 * time)%Q) by lra. destruct (ratio_close _ c A0 ltac:(lia)) as [Q1 Q2].
    apply shown_two; [exact Q1| |exact Q2]. apply Qle_shift_div_l; [exact C1|]. lra.
Qed.
Print Assumptions C86_text.

(** ** Example: two of three messages. *)
Example C86_report : agg_text (Report 3 2 (-7) 10 1 3) (1 # 8) =
  chars "Logs Encountered: 3" ++ [13; 10] ++ chars "Matching Logs: 2 (66.67%)" ++ [13; 10] ++ chars "Min: -7" ++ [13; 10] ++ chars "Max: 10" ++ [13; 10] ++
  chars "Mean: 1" ++ [13; 10] ++ chars "Total: 3" ++ [13; 10] ++ [13; 10] ++ chars "The aggregation took 0.12 seconds over 2 elements (62500000.00 ns avg)" ++ [13; 10].
Proof. vm_compute. reflexivity. Qed.
