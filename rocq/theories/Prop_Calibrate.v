(** C69: the measured frequency of the clock. *)
From Coq Require Import QArith Qabs Qround Lqa.
From Verif Require Import Base BaseProofs DecodeProofs TimeFmt TimeProofs Prop_TimeOrder Prop_Cycles Calibrate.
Open Scope Q_scope.

(** ** Specification *)

(** A reading and the time at which it was taken, in microseconds. *)
Definition timed : Type := Q * reading.
Definition us (x : timed) : Z := (rd_sec (snd x) * 1000000 + rd_usec (snd x))%Z.

(** The clock shows whole microseconds; up to [e] microseconds later the counter, which
    has run at [f] per second since [boot], is read. *)
Definition taken (f e boot : Q) (x : timed) : Prop :=
  (0 <= us x < 2 ^ 52)%Z /\ (0 <= rd_tsc (snd x) < 2 ^ 64)%Z /\
  inject_Z (us x) <= fst x /\ fst x < inject_Z (us x) + 1 /\
  exists t, fst x <= t /\ t <= fst x + e /\
    inject_Z (rd_tsc (snd x)) <= f * (t - boot) / 1000000 /\ f * (t - boot) / 1000000 < inject_Z (rd_tsc (snd x)) + 1.

(** Consecutive readings, at most [g] microseconds apart. *)
Fixpoint spinning (g : Q) (xs : list timed) : Prop :=
  match xs with
  | [] => True
  | x :: r => match r with [] => True | y :: _ => fst x <= fst y /\ fst y <= fst x + g end /\ spinning g r
  end.

Definition readings (f e boot g : Q) (xs : list timed) : Prop := Forall (taken f e boot) xs /\ spinning g xs.

(** [r] is off from [f] by at most a share [s] (and what is due to the counter being
    a whole number and to the doubles). *)
Definition within (f s r : Q) : Prop := Qabs (r - f) <= f * s + 101 + f * (1 # 2 ^ 48).

(** "Two successive calculations that are within 0.001% of each other (or in other
    words, a drift of up to 10us per second)": the result has that precision if no
    reading was interrupted. *)
Definition C69_full : Prop := forall f boot g xs r, 1000000 <= f -> 0 <= g -> readings f 0 boot g xs ->
  init (map snd xs) = Some r -> within f (1 # 100000) r.

(** ** Proof *)
Definition phase (x : timed) : Q := fst x - inject_Z (us x).

Lemma elapsed_us : forall f e boot x y, taken f e boot x -> taken f e boot y -> fst x <= fst y ->
  elapsed (snd x) (snd y) = (us y - us x)%Z /\ (us x <= us y)%Z.
Proof.
  intros f e boot x y (X0 & _ & X1 & X2 & _) (Y0 & _ & Y1 & Y2 & _) L.
  assert (H : (us x < us y + 1)%Z). { rewrite Zlt_Qlt, inject_Z_plus. change (inject_Z 1) with 1. lra. }
  split; [|lia]. unfold elapsed. replace (_ + _)%Z with (us y - us x)%Z by (unfold us; ring).
  unfold to_u. apply Z.mod_small. lia.
Qed.

Lemma measure_spec : forall f e boot g xs x0 y r rest, taken f e boot x0 -> taken f e boot y -> Forall (taken f e boot) xs ->
  fst x0 <= fst y -> (us y - us x0 <= 10000)%Z -> spinning g (y :: xs) ->
  measure (snd x0) (map snd xs) = Some (r, rest) ->
  exists y' x1 xs', taken f e boot x1 /\ Forall (taken f e boot) xs' /\ rest = map snd xs' /\ r = rate (snd x0) (snd x1) /\
    spinning g (x1 :: xs') /\ fst x0 <= fst x1 /\ (10000 < us x1 - us x0)%Z /\
    taken f e boot y' /\ (us y' < us x1)%Z /\ fst x1 <= fst y' + g.
Proof.
  intros f e boot g xs x0. induction xs as [|x xs IH]; intros y r rest T0 TY F L U HS H; [discriminate H|].
  cbn [map measure] in H. assert (TX := Forall_inv F). apply Forall_inv_tail in F.
  destruct HS as [[S1 S2] HS]. assert (L' : fst x0 <= fst x) by lra.
  destruct (elapsed_us _ _ _ _ _ T0 TX L') as [E E']. rewrite E in H.
  destruct (10000 <? us x - us x0)%Z eqn:C.
  - injection H as <- <-. exists y, x, xs. splits; auto; try lia.
  - destruct (IH x r rest) as (y' & x1 & xs' & Q); auto; [lia|]. eauto.
Qed.

Lemma zero_disagrees : forall c, 0 <= c -> agrees 0 c = false.
Proof.
  intros c H. unfold agrees. apply andb_false_iff. left. apply negb_false_iff, Qle_bool_iff. apply rnd_pos.
  assert (D : 0 <= c / 100000) by (unfold Qdiv; change (/ 100000) with (1 # 100000); lra).
  destruct (rnd_rel _ D) as [_ R]. set (d := rnd (c / 100000)) in *. clearbody d. unfold Qdiv, eps in R. change (/ 100000) with (1 # 100000) in R.
  change (2 ^ 53)%positive with 9007199254740992%positive in R. lra.
Qed.

Lemma rate_pos : forall a b, 0 <= rate a b.
Proof.
  intros a b. unfold rate. apply rnd_pos. unfold Qdiv.
  assert (A : forall n, 0 <= rnd (inject_Z (to_u 64 n))).
  { intros n. apply rnd_pos. change 0 with (inject_Z 0). apply iz_le. unfold to_u. apply Z.mod_pos_bound. reflexivity. }
  apply Qmult_le_0_compat.
  - apply rnd_pos. specialize (A (rd_tsc b - rd_tsc a)%Z). lra.
  - apply Qinv_le_0_compat. apply A.
Qed.

(** What init returns is the rate between two readings; the first was taken shortly
    after the clock had moved on, and so was the second. *)
Lemma calibrate_spec : forall f e boot g fuel old xs r, 0 <= g -> 2 * g < 1 -> readings f e boot g xs ->
  (old = 0 \/ match xs with x :: _ => phase x < 2 * g | [] => True end) ->
  calibrate fuel old (map snd xs) = Some r ->
  exists x0 x1, taken f e boot x0 /\ taken f e boot x1 /\ fst x0 <= fst x1 /\ (10000 < us x1 - us x0)%Z /\ r = rate (snd x0) (snd x1) /\
    phase x0 < 2 * g /\ phase x1 < g.
Proof.
  intros f e boot g. induction fuel as [|fuel IH]; intros old xs r G0 G1 (F & HS) HO H; [discriminate H|].
  destruct xs as [|x0 xs]; [discriminate H|]. cbn [map calibrate] in H.
  destruct (measure (snd x0) (map snd xs)) as [[c rest]|] eqn:EM; [|discriminate H].
  assert (T0 := Forall_inv F). apply Forall_inv_tail in F.
  destruct (measure_spec f e boot g xs x0 x0 c rest) as (y & x1 & xs' & T1 & F' & -> & EC & HS' & L & U & TY & UY & LY); auto; [lra|lia|].
  assert (P1 : phase x1 < g).
  { destruct TY as (_ & _ & _ & TY & _). unfold phase.
    assert (inject_Z (us y) + 1 <= inject_Z (us x1)).
    { change 1 with (inject_Z 1). rewrite <- inject_Z_plus. apply iz_le. lia. } lra. }
  destruct (agrees old c) eqn:EA.
  - injection H as <-. exists x0, x1. splits; auto.
    destruct HO as [-> | HO]; auto. rewrite zero_disagrees in EA; [discriminate EA|]. rewrite EC. apply rate_pos.
  - apply IH in H; auto; [split; auto; now destruct HS'|]. right. destruct xs' as [|x2 xs']; auto.
    destruct HS' as [[A B] _]. assert (T2 := Forall_inv F').
    destruct (elapsed_us _ _ _ _ _ T1 T2 A) as [_ C]. apply iz_le in C. unfold phase in *. lra.
Qed.

(** The same without an assumption about the time between readings. *)
Lemma calibrate_any : forall f e boot g fuel old xs r, readings f e boot g xs ->
  calibrate fuel old (map snd xs) = Some r ->
  exists x0 x1, taken f e boot x0 /\ taken f e boot x1 /\ fst x0 <= fst x1 /\ (10000 < us x1 - us x0)%Z /\ r = rate (snd x0) (snd x1).
Proof.
  intros f e boot g. induction fuel as [|fuel IH]; intros old xs r (F & HS) H; [discriminate H|].
  destruct xs as [|x0 xs]; [discriminate H|]. cbn [map calibrate] in H.
  destruct (measure (snd x0) (map snd xs)) as [[c rest]|] eqn:EM; [|discriminate H].
  assert (T0 := Forall_inv F). apply Forall_inv_tail in F.
  destruct (measure_spec f e boot g xs x0 x0 c rest) as (y & x1 & xs' & T1 & F' & -> & EC & HS' & L & U & TY & UY & LY); auto; [lra|lia|].
  destruct (agrees old c) eqn:EA.
  - injection H as <-. exists x0, x1. splits; auto.
  - apply IH in H; auto. split; auto. now destruct HS'.
Qed.

Lemma tsc_diff : forall f e boot s x0 x1, 0 < f -> 0 <= e -> taken f e boot x0 -> taken f e boot x1 ->
  phase x1 - phase x0 <= s -> phase x0 - phase x1 <= s ->
  let T := inject_Z (us x1 - us x0) in let C := inject_Z (rd_tsc (snd x1) - rd_tsc (snd x0)) in
  1000000 * C <= f * T + f * (s + e) + 1000000 /\ f * T - f * (s + e) - 1000000 < 1000000 * C.
Proof.
  intros f e boot s x0 x1 F0 E0 (_ & _ & A1 & A2 & t0 & A3 & A4 & A5 & A6) (_ & _ & B1 & B2 & t1 & B3 & B4 & B5 & B6) P1 P2 T C.
  unfold T, C, Z.sub. rewrite !inject_Z_plus, !inject_Z_opp. unfold phase in *. unfold Qdiv in *. change (/ 1000000) with (1 # 1000000) in *.
  set (u0 := inject_Z (us x0)) in *. set (u1 := inject_Z (us x1)) in *. set (c0 := inject_Z (rd_tsc (snd x0))) in *. set (c1 := inject_Z (rd_tsc (snd x1))) in *.
  set (a := fst x0) in *. set (b := fst x1) in *. clearbody u0 u1 c0 c1 a b. clear T C.
  assert (D1 : f * (t1 - t0) <= f * (u1 + - u0 + s + e)) by (apply Qmult_le_l; [exact F0|lra]).
  assert (D2 : f * (u1 + - u0 - s - e) <= f * (t1 - t0)) by (apply Qmult_le_l; [exact F0|lra]).
  split; [setoid_replace (f * (u1 + - u0) + f * (s + e) + 1000000) with (f * (u1 + - u0 + s + e) + 1000000) by ring
         |setoid_replace (f * (u1 + - u0) - f * (s + e) - 1000000) with (f * (u1 + - u0 - s - e) - 1000000) by ring];
    setoid_replace (f * (t1 - t0)) with (f * (t1 - boot) - f * (t0 - boot)) in D1 by ring;
    setoid_replace (f * (t1 - t0)) with (f * (t1 - boot) - f * (t0 - boot)) in D2 by ring;
    set (p := f * (t1 - boot)) in *; set (q := f * (t0 - boot)) in *; clearbody p q; lra.
Qed.

Lemma three_rnd : forall c T, 0 <= c -> 0 < T -> rnd T == T ->
  let x := 1000000 * c / T in
  x - x * (4 * eps) <= rnd (rnd (1000000 * rnd c) / rnd T) /\ rnd (rnd (1000000 * rnd c) / rnd T) <= x + x * (4 * eps).
Proof.
  intros c T C0 T0 RT x. assert (IT : 0 < / T) by now apply Qinv_lt_0_compat.
  destruct (rnd_rel _ C0) as [A1 A2]. set (a := rnd c) in *. clearbody a.
  assert (AE : 0 <= a) by (unfold eps in *; change (2 ^ 53)%positive with 9007199254740992%positive in *; lra).
  assert (B0 : 0 <= 1000000 * a) by lra. destruct (rnd_rel _ B0) as [B1 B2]. set (b := rnd (1000000 * a)) in *. clearbody b.
  assert (BE : 0 <= b) by (unfold eps in *; change (2 ^ 53)%positive with 9007199254740992%positive in *; lra).
  assert (ED : b / rnd T == b * / T) by (unfold Qdiv; now rewrite RT).
  assert (D0 : 0 <= b / rnd T) by (rewrite ED; apply Qmult_le_0_compat; lra).
  destruct (rnd_rel _ D0) as [D1 D2]. set (d := rnd (b / rnd T)) in *. clearbody d. set (w := b / rnd T) in *. clearbody w.
  destruct (scaled c a (1000000 * / T) ltac:(lra) A1 A2) as [A3 A4]. destruct (scaled (1000000 * a) b (/ T) ltac:(lra) B1 B2) as [B3 B4].
  assert (E1 : c * (1000000 * / T) == x) by (unfold x, Qdiv; ring). assert (E2 : a * (1000000 * / T) == 1000000 * a * / T) by ring.
  assert (X0 : 0 <= x) by (rewrite <- E1; apply Qmult_le_0_compat; lra).
  rewrite E1 in A3, A4. rewrite E2 in A3, A4. clearbody x. set (y := 1000000 * a * / T) in *. set (z := b * / T) in *. clearbody y z.
  unfold eps in *; change (2 ^ 53)%positive with 9007199254740992%positive in *; split; lra.
Qed.

Lemma rate_within : forall f e boot s x0 x1, 0 < f -> 0 <= e -> e <= 10000 -> 0 <= s -> s <= 1 ->
  taken f e boot x0 -> taken f e boot x1 -> (10000 < us x1 - us x0)%Z ->
  phase x1 - phase x0 <= s -> phase x0 - phase x1 <= s -> fst x0 <= fst x1 ->
  within f ((s + e) / 10000) (rate (snd x0) (snd x1)).
Proof.
  intros f e boot s x0 x1 F0 E0 E1 S0 S1 T0 T1 U P1 P2 L.
  destruct (tsc_diff f e boot s x0 x1 F0 E0 T0 T1 P1 P2) as [H1 H2].
  destruct (elapsed_us _ _ _ _ _ T0 T1 L) as [EU _]. unfold rate. rewrite EU.
  destruct T0 as ((U0 & U0') & (C0 & C0') & _), T1 as ((U1 & U1') & (C1 & C1') & _).
  set (T := (us x1 - us x0)%Z) in *. set (C := (rd_tsc (snd x1) - rd_tsc (snd x0))%Z) in *.
  assert (QT : 10001 <= inject_Z T) by (change 10001 with (inject_Z 10001); apply iz_le; lia).
  assert (FT : f * (s + e) <= f * inject_Z T) by (apply Qmult_le_l; [exact F0|lra]).
  assert (CP : (0 <= C)%Z).
  { assert (-1 < C)%Z; [|lia]. rewrite Zlt_Qlt. change (inject_Z (-1)) with (-(1)). lra. }
  assert (EC : to_u 64 C = C) by (unfold to_u; apply Z.mod_small; unfold C in *; lia). rewrite EC.
  assert (QC : 0 <= inject_Z C) by (change 0 with (inject_Z 0); now apply iz_le).
  assert (RT : rnd (inject_Z T) == inject_Z T).
  { apply (rnd_exact _ T 0); [unfold pow2; cbn; ring|]. unfold T in *. lia. }
  destruct (three_rnd (inject_Z C) (inject_Z T) QC ltac:(lra) RT) as [R1 R2].
  set (r := rnd _) in *. clearbody r. cbn zeta in R1, R2.
  set (q := inject_Z T) in *. set (c := inject_Z C) in *. clearbody q c.
  assert (X1 : 1000000 * c / q <= f + f * ((s + e) / 10000) + 100).
  { apply Qle_shift_div_r; [lra|]. unfold Qdiv. change (/ 10000) with (1 # 10000).
    assert (f * (s + e) * 1 <= f * (s + e) * ((1 # 10000) * q)).
    { rewrite !(Qmult_comm (f * (s + e))). apply Qmult_le_compat_r; [lra|]. apply Qmult_le_0_compat; lra. }
    setoid_replace ((f + f * ((s + e) * (1 # 10000)) + 100) * q) with (f * q + f * (s + e) * ((1 # 10000) * q) + 100 * q) by ring. lra. }
  assert (X2 : f - f * ((s + e) / 10000) - 100 <= 1000000 * c / q).
  { apply Qle_shift_div_l; [lra|]. unfold Qdiv. change (/ 10000) with (1 # 10000).
    assert (f * (s + e) * 1 <= f * (s + e) * ((1 # 10000) * q)).
    { rewrite !(Qmult_comm (f * (s + e))). apply Qmult_le_compat_r; [lra|]. apply Qmult_le_0_compat; lra. }
    setoid_replace ((f - f * ((s + e) * (1 # 10000)) - 100) * q) with (f * q - f * (s + e) * ((1 # 10000) * q) - 100 * q) by ring. lra. }
  assert (X0 : 0 <= 1000000 * c / q).
  { apply Qle_shift_div_l; lra. }
  set (x := 1000000 * c / q) in *. clearbody x. clear H1 H2 FT RT.
  assert (SE : f * ((s + e) / 10000) <= f * (11 # 10)).
  { apply Qmult_le_l; [exact F0|]. unfold Qdiv. change (/ 10000) with (1 # 10000). lra. }
  assert (SP : 0 <= f * ((s + e) / 10000)).
  { apply Qmult_le_0_compat; [lra|]. unfold Qdiv. change (/ 10000) with (1 # 10000). lra. }
  unfold within. set (k := f * ((s + e) / 10000)) in *. clearbody k. unfold eps in *.
  change (2 ^ 53)%positive with 9007199254740992%positive in *. change (2 ^ 48)%positive with 281474976710656%positive.
  apply Qabs_Qle_condition. split; lra.
Qed.

(** C69, the parts that hold.  Readings whose two halves are at most [e] microseconds
    apart: the result is within (1 + e) / 10000 of the frequency, because the clock
    shows whole microseconds. *)
Theorem C69_partial : forall f e boot g xs r, 0 < f -> 0 <= e <= 10000 -> readings f e boot g xs ->
  init (map snd xs) = Some r -> within f ((1 + e) / 10000) r.
Proof.
  intros f e boot g xs r F0 (E0 & E1) H HI. apply (calibrate_any f e boot g) in HI; auto.
  destruct HI as (x0 & x1 & T0 & T1 & L & U & ->).
  pose proof T0 as (_ & _ & A1 & A2 & _). pose proof T1 as (_ & _ & B1 & B2 & _).
  apply (rate_within f e boot); auto; unfold phase; try lra.
Qed.

(** If the loop also reads the clock every [g] microseconds, g less than half a
    microsecond, the result is within (2 g + e) / 10000: the measurement it comes from
    starts when the one before it ends, which is when the clock has just moved on. *)
Theorem C69_spinning_partial : forall f e boot g xs r, 0 < f -> 0 <= e <= 10000 -> 0 <= g -> 2 * g < 1 -> readings f e boot g xs ->
  init (map snd xs) = Some r -> within f ((2 * g + e) / 10000) r.
Proof.
  intros f e boot g xs r F0 (E0 & E1) G0 G1 H HI. apply (calibrate_spec f e boot g) in HI; auto.
  destruct HI as (x0 & x1 & T0 & T1 & L & U & -> & P0 & P1).
  pose proof T0 as (_ & _ & A1 & A2 & _). pose proof T1 as (_ & _ & B1 & B2 & _). unfold phase in *.
  apply (rate_within f e boot); auto; unfold phase; try lra.
Qed.

(** ** Examples *)

(** 3 GHz, from 12:00 on: each measurement starts 0.9 microseconds after the clock
    has moved on; both give 2999.73 MHz, off by 0.009%. *)
Definition at_us (t : Q) : timed := (t, Reading 0 (Qfloor t) (Qfloor (3000 * t))).
Definition off_run : list timed := [at_us (9 # 10); at_us (10001); at_us (200009 # 10); at_us 30001].

Lemma at_us_taken : forall t, 0 <= t -> t < 1000000 -> taken 3000000000 0 0 (at_us t).
Proof.
  intros t H0 H1. unfold taken, at_us, us. cbn [fst snd rd_sec rd_usec rd_tsc].
  pose proof (Qfloor_le t) as A1. pose proof (Qlt_floor t) as A2. pose proof (Qfloor_le (3000 * t)) as B1. pose proof (Qlt_floor (3000 * t)) as B2.
  rewrite inject_Z_plus in A2, B2. change (inject_Z 1) with 1 in *.
  assert (F1 : (-1 < Qfloor t)%Z) by (rewrite Zlt_Qlt; change (inject_Z (-1)) with (-(1)); lra).
  assert (F2 : (Qfloor t < 1000001)%Z) by (rewrite Zlt_Qlt; change (inject_Z 1000001) with 1000001; lra).
  assert (F3 : (-1 < Qfloor (3000 * t))%Z) by (rewrite Zlt_Qlt; change (inject_Z (-1)) with (-(1)); lra).
  assert (F4 : (Qfloor (3000 * t) < 3000000001)%Z) by (rewrite Zlt_Qlt; change (inject_Z 3000000001) with 3000000001; lra).
  change (0 * 1000000)%Z with 0%Z. rewrite !Z.add_0_l. splits; auto; try lia.
  exists t. unfold Qdiv. change (/ 1000000) with (1 # 1000000). splits; lra.
Qed.

Lemma off_run_ok : readings 3000000000 0 0 20000 off_run.
Proof.
  split; [repeat (constructor; [apply at_us_taken; unfold Qle, Qlt; cbn; lia|]); constructor|].
  cbn [spinning off_run at_us fst]. splits; auto; unfold Qle, Qplus; cbn; lia.
Qed.

Theorem C69_refuted : ~ C69_full.
Proof.
  intros F. assert (E : exists r, init (map snd off_run) = Some r /\ r < 2999731000) by (vm_compute; eexists; split; reflexivity).
  destruct E as (r & E & L).
  assert (W := F 3000000000 0 20000 off_run r ltac:(unfold Qle; cbn; lia) ltac:(unfold Qle; cbn; lia) off_run_ok E).
  unfold within in W. apply Qabs_Qle_condition in W. destruct W as [W _]. change (2 ^ 48)%positive with 281474976710656%positive in W. lra.
Qed.

(** The first measurement starts 0.9 microseconds after the clock has moved on, the
    other two at once: these are exact and agree. *)
Definition good_run : list timed :=
  [at_us (9 # 10); at_us 10000; at_us 10001; at_us 10001; at_us 20001; at_us 20002; at_us 20002; at_us 30002; at_us 30003].
Example C69_instance : readings 3000000000 0 0 10000 good_run /\ exists r, init (map snd good_run) = Some r /\ r == 3000000000.
Proof.
  split; [split; [repeat (constructor; [apply at_us_taken; unfold Qle, Qlt; cbn; lia|]); constructor|]|vm_compute; eexists; split; reflexivity].
  cbn [spinning good_run at_us fst]. splits; auto; unfold Qle, Qplus; cbn; lia.
Qed.

Print Assumptions C69_partial.
Print Assumptions C69_spinning_partial.
Print Assumptions C69_refuted.
