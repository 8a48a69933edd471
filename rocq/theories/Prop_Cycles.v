(** C55: conversions between cycles and time. *)
From Coq Require Import QArith Qabs Qround Lqa.
From Verif Require Import Base BaseProofs Chars Fmt Preproc PreprocProofs TimeFmt TimeProofs Prop_Time Prop_TimeOrder Cycles.
Open Scope Q_scope.

(** Specification: the exact times, and "rounded to the nearest number" up to the
    precision of the doubles. *)
Definition exact_ns (cycles : Z) (cps : Q) : Q := 1000000000 * inject_Z cycles / cps.
Definition exact_us (cycles : Z) (cps : Q) : Q := 1000000 * inject_Z cycles / cps.
Definition exact_cycles (ns : Z) (cps : Q) : Q := inject_Z ns * cps / 1000000000.
Definition rounds (r : Z) (x : Q) : Prop := Qabs (inject_Z r - x) <= (1 # 2) + (x + 1) / inject_Z (2 ^ 50).

(** The conversions are defined below 2^63, round to the nearest number and are
    monotone. *)
Definition converts (f : Z -> option Z) (exact : Z -> Q) : Prop :=
  (forall n, (0 <= n)%Z -> exact n <= inject_Z (2 ^ 63) -> exists r, f n = Some r /\ rounds r (exact n)) /\
  (forall n m r r', (0 <= n <= m)%Z -> f n = Some r -> f m = Some r' -> (r <= r')%Z).

Definition C55_full : Prop := forall cps, 0 < cps ->
  converts (fun c => toNanoseconds c cps) (fun c => exact_ns c cps) /\
  converts (fun n => fromNanoseconds n cps) (fun n => exact_cycles n cps) /\
  converts (fun c => toMicroseconds c cps) (fun c => exact_us c cps).

(** ** Proof *)

Lemma rnd_rel : forall x, 0 <= x -> x - x * eps <= rnd x /\ rnd x <= x + x * eps.
Proof. intros x H. pose proof (rnd_err x) as E. rewrite (Qabs_pos x) in E by auto. apply Qabs_Qle_condition in E. lra. Qed.

Lemma scaled : forall a b c, 0 <= c -> a - a * eps <= b -> b <= a + a * eps -> a * c - a * c * eps <= b * c /\ b * c <= a * c + a * c * eps.
Proof. intros a b c C H1 H2. split; [setoid_replace (a * c - a * c * eps) with ((a - a * eps) * c) by ring|setoid_replace (a * c + a * c * eps) with ((a + a * eps) * c) by ring]; now apply Qmult_le_compat_r. Qed.

(** Three roundings, the last one of a sum with one half, and truncation. *)
Lemma finish : forall x v, 0 <= x -> x <= inject_Z (2 ^ 63) -> x - x * (4 * eps) <= v -> v <= x + x * (4 * eps) ->
  exists r, to_uint64 (rnd (v + (1 # 2))) = Some r /\ rounds r x.
Proof.
  intros x v X0 X1 V1 V2. unfold eps in *. change (2 ^ 53)%positive with 9007199254740992%positive in *. change (inject_Z (2 ^ 63)) with (9223372036854775808 # 1) in X1.
  assert (V0 : 0 <= v + (1 # 2)) by lra. destruct (rnd_rel _ V0) as [R1 R2]. unfold eps in *. change (2 ^ 53)%positive with 9007199254740992%positive in *.
  set (y := rnd (v + (1 # 2))) in *. clearbody y. destruct (qtrunc_spec y) as [T _]. destruct T as (T1 & T2 & T3); [lra|].
  exists (qtrunc y). split.
  - unfold to_uint64. replace (0 <=? qtrunc y)%Z with true by lia. assert (L : (qtrunc y < 2 ^ 64)%Z).
    { rewrite Zlt_Qlt. change (inject_Z (2 ^ 64)) with (18446744073709551616 # 1). lra. }
    replace (qtrunc y <? 2 ^ 64)%Z with true by lia. reflexivity.
  - unfold rounds. unfold Qdiv. change (/ inject_Z (2 ^ 50)) with (1 # 1125899906842624). apply Qabs_Qle_condition. split; lra.
Qed.

Lemma to_uint64_mono : forall x y r r', x <= y -> to_uint64 x = Some r -> to_uint64 y = Some r' -> (r <= r')%Z.
Proof.
  unfold to_uint64. intros x y r r' H R R'. destruct ((0 <=? qtrunc x)%Z && (qtrunc x <? 2 ^ 64)%Z); [|discriminate R]. destruct ((0 <=? qtrunc y)%Z && (qtrunc y <? 2 ^ 64)%Z); [|discriminate R'].
  injection R as <-. injection R' as <-. now apply qtrunc_mono.
Qed.

Lemma ns_ok : forall cps, 0 < cps -> converts (fun c => toNanoseconds c cps) (fun c => exact_ns c cps).
Proof.
  intros cps C. split.
  - intros n N0 X. unfold toNanoseconds, exact_ns in *. assert (I0 : 0 <= inject_Z n) by (change 0 with (inject_Z 0); now apply iz_le).
    assert (IC : 0 < / cps) by now apply Qinv_lt_0_compat. unfold Qdiv in *.
    destruct (rnd_rel _ I0) as [A1 A2]. set (a := rnd (inject_Z n)) in *. set (i := inject_Z n) in *. clearbody a i.
    assert (AE : 0 <= a) by (unfold eps in *; change (2 ^ 53)%positive with 9007199254740992%positive in *; lra).
    assert (B0 : 0 <= 1000000000 * a) by lra. destruct (rnd_rel _ B0) as [B1 B2]. set (b := rnd (1000000000 * a)) in *. clearbody b.
    assert (BE : 0 <= b) by (unfold eps in *; change (2 ^ 53)%positive with 9007199254740992%positive in *; lra).
    assert (D0 : 0 <= b * / cps) by (apply Qmult_le_0_compat; lra). destruct (rnd_rel _ D0) as [D1 D2]. set (d := rnd (b * / cps)) in *. clearbody d.
    destruct (scaled i a (1000000000 * / cps) ltac:(lra) A1 A2) as [A3 A4]. destruct (scaled (1000000000 * a) b (/ cps) ltac:(lra) B1 B2) as [B3 B4].
    assert (E1 : i * (1000000000 * / cps) == 1000000000 * i * / cps) by ring. assert (E2 : a * (1000000000 * / cps) == 1000000000 * a * / cps) by ring.
    set (x := 1000000000 * i * / cps) in *. set (y := 1000000000 * a * / cps) in *. set (z := b * / cps) in *.
    assert (X0 : 0 <= x) by (unfold x; apply Qmult_le_0_compat; lra). rewrite E1 in A3, A4. rewrite E2 in A3, A4. clearbody x y z.
    apply finish; auto; unfold eps in *; change (2 ^ 53)%positive with 9007199254740992%positive in *; lra.
  - intros n m r r' H. unfold toNanoseconds. apply to_uint64_mono. apply rnd_mono. apply Qplus_le_l. apply rnd_mono. apply (Qmult_le_r _ _ cps C). rewrite !div_mul by auto.
    apply rnd_mono. apply (Qmult_le_l _ _ 1000000000); [reflexivity|]. apply rnd_mono. apply iz_le. lia.
Qed.

Lemma cycles_ok : forall cps, 0 < cps -> converts (fun n => fromNanoseconds n cps) (fun n => exact_cycles n cps).
Proof.
  intros cps C. split.
  - intros n N0 X. unfold fromNanoseconds, exact_cycles in *. assert (I0 : 0 <= inject_Z n) by (change 0 with (inject_Z 0); now apply iz_le).
    unfold Qdiv in *. change (/ 1000000000) with (1 # 1000000000) in *.
    destruct (rnd_rel _ I0) as [A1 A2]. set (a := rnd (inject_Z n)) in *. set (i := inject_Z n) in *. clearbody a i.
    assert (AE : 0 <= a) by (unfold eps in *; change (2 ^ 53)%positive with 9007199254740992%positive in *; lra).
    assert (B0 : 0 <= a * cps) by (apply Qmult_le_0_compat; lra). destruct (rnd_rel _ B0) as [B1 B2]. set (b := rnd (a * cps)) in *. clearbody b.
    destruct (scaled i a cps ltac:(lra) A1 A2) as [A3 A4]. assert (X0 : 0 <= i * cps) by (apply Qmult_le_0_compat; lra). set (x := i * cps) in *. set (y := a * cps) in *. clearbody x y.
    assert (BE : 0 <= b * (1 # 1000000000)) by (unfold eps in *; change (2 ^ 53)%positive with 9007199254740992%positive in *; lra).
    destruct (rnd_rel _ BE) as [D1 D2]. set (d := rnd (b * (1 # 1000000000))) in *. clearbody d.
    apply finish; auto; unfold eps in *; change (2 ^ 53)%positive with 9007199254740992%positive in *; lra.
  - intros n m r r' H. unfold fromNanoseconds. apply to_uint64_mono. apply rnd_mono. apply Qplus_le_l. apply rnd_mono. apply (Qmult_le_r _ _ 1000000000); [reflexivity|]. rewrite !div_mul by reflexivity.
    apply rnd_mono. apply (Qmult_le_r _ _ cps C). apply rnd_mono. apply iz_le. lia.
Qed.

(** Nanoseconds and cycles are as claimed; microseconds are cut off instead. *)
Theorem C55_partial : forall cps, 0 < cps ->
  converts (fun c => toNanoseconds c cps) (fun c => exact_ns c cps) /\
  converts (fun n => fromNanoseconds n cps) (fun n => exact_cycles n cps) /\
  forall c ns us, toNanoseconds c cps = Some ns -> (toMicroseconds c cps = Some us <-> us = Z.div ns 1000).
Proof.
  intros cps C. split; [now apply ns_ok|]. split; [now apply cycles_ok|]. intros c ns us E. unfold toMicroseconds. rewrite E. cbn [option_map]. split; congruence.
Qed.
Print Assumptions C55_partial.

(** Back and forth. *)
Theorem C55_roundtrip : forall cps c ns c', 0 < cps -> (0 <= c)%Z -> exact_ns c cps <= inject_Z (2 ^ 62) -> exact_cycles ns cps <= inject_Z (2 ^ 62) ->
  toNanoseconds c cps = Some ns -> fromNanoseconds ns cps = Some c' ->
  Qabs (inject_Z c' - inject_Z c) <= (1 # 2) + (cps / 1000000000) * ((1 # 2) + (exact_ns c cps + 1) / inject_Z (2 ^ 50)) + (exact_cycles ns cps + 1) / inject_Z (2 ^ 50).
Proof.
  intros cps c ns c' C C0 X1 X2 E1 E2. assert (LE : inject_Z (2 ^ 62) <= inject_Z (2 ^ 63)) by (apply iz_le; lia).
  destruct (proj1 (ns_ok cps C) c C0 (Qle_trans _ _ _ X1 LE)) as (r & R1 & R2). rewrite E1 in R1. injection R1 as <-.
  assert (N0 : (0 <= ns)%Z). { unfold toNanoseconds, to_uint64 in E1. match type of E1 with (if ?b then _ else _) = _ => destruct b eqn:B; [|discriminate E1] end. injection E1 as <-. lia. }
  destruct (proj1 (cycles_ok cps C) ns N0 (Qle_trans _ _ _ X2 LE)) as (r' & R3 & R4). rewrite E2 in R3. injection R3 as <-.
  unfold rounds in *. apply Qabs_Qle_condition in R2. apply Qabs_Qle_condition in R4.
  assert (EQ : exact_ns c cps * (cps / 1000000000) == inject_Z c) by (unfold exact_ns; field; intro Z; rewrite Z in C; discriminate C).
  assert (EC : exact_cycles ns cps == inject_Z ns * (cps / 1000000000)) by (unfold exact_cycles; field).
  set (k := cps / 1000000000) in *. assert (K : 0 <= k) by (unfold k, Qdiv; apply Qmult_le_0_compat; [lra|discriminate]).
  set (t := (1 # 2) + (exact_ns c cps + 1) / inject_Z (2 ^ 50)) in *. set (t' := (exact_cycles ns cps + 1) / inject_Z (2 ^ 50)) in *.
  assert (G1 : (inject_Z ns - exact_ns c cps) * k <= t * k) by (apply Qmult_le_compat_r; [apply R2|exact K]).
  assert (G2 : - t * k <= (inject_Z ns - exact_ns c cps) * k) by (apply Qmult_le_compat_r; [apply R2|exact K]).
  setoid_replace ((inject_Z ns - exact_ns c cps) * k) with (exact_cycles ns cps - inject_Z c) in G1 by (rewrite EC, <- EQ; ring).
  setoid_replace ((inject_Z ns - exact_ns c cps) * k) with (exact_cycles ns cps - inject_Z c) in G2 by (rewrite EC, <- EQ; ring).
  apply Qabs_Qle_condition. destruct R4 as [R4 R5]. setoid_replace (- t * k) with (- (k * t)) in G2 by ring. setoid_replace (t * k) with (k * t) in G1 by ring. set (kt := k * t) in *. clearbody kt t'. split; lra.
Qed.
Print Assumptions C55_roundtrip.

(** 1.9 microseconds are 1. *)
Theorem C55_refuted : ~ C55_full.
Proof.
  intro H. destruct (H 1000000000 ltac:(reflexivity)) as (_ & _ & (M & _)). destruct (M 1900%Z ltac:(lia)) as (r & E & R).
  - vm_compute. discriminate.
  - vm_compute in E. injection E as <-. vm_compute in R. apply R. reflexivity.
Qed.
Print Assumptions C55_refuted.

(** 100 cycles at 2.4 GHz are 42 ns, which are 101 cycles. *)
Example C55_instance : toNanoseconds 100 2400000000 = Some 42%Z /\ fromNanoseconds 42 2400000000 = Some 101%Z /\
  fromSeconds (3 # 2) 2400000000 = Some 3600000000%Z /\ toNanoseconds (2 ^ 63) 1 = None.
Proof. repeat split; vm_compute; reflexivity. Qed.

(** Seconds are converted the same way. *)
Theorem C55_seconds : forall cps, 0 < cps ->
  (forall s, 0 <= s -> s * cps <= inject_Z (2 ^ 63) -> exists r, fromSeconds s cps = Some r /\ rounds r (s * cps)) /\
  (forall s s' r r', s <= s' -> fromSeconds s cps = Some r -> fromSeconds s' cps = Some r' -> (r <= r')%Z).
Proof.
  intros cps C. split.
  - intros s S0 X. unfold fromSeconds. assert (X0 : 0 <= s * cps) by (apply Qmult_le_0_compat; lra).
    destruct (rnd_rel _ X0) as [B1 B2]. set (b := rnd (s * cps)) in *. set (x := s * cps) in *. clearbody b x.
    apply finish; auto; unfold eps in *; change (2 ^ 53)%positive with 9007199254740992%positive in *; lra.
  - intros s s' r r' H. unfold fromSeconds. apply to_uint64_mono. apply rnd_mono. apply Qplus_le_l. apply rnd_mono. now apply (Qmult_le_r _ _ cps C).
Qed.
Print Assumptions C55_seconds.

(** 3/5 of a cycle is one cycle. *)
Example C55_seconds_instance : fromSeconds (3 # 5) 1 = Some 1%Z /\ fromSeconds (2 # 5) 1 = Some 0%Z.
Proof. split; vm_compute; reflexivity. Qed.
