(** C54: printed times never go backwards. *)
From Coq Require Import QArith Qabs Qround Lqa.
From Verif Require Import Base BaseProofs Chars Fmt Preproc PreprocProofs TimeFmt TimeProofs Prop_Time.
Open Scope Q_scope.

(** Specification: seconds first, then the number the digits stand for. *)
Definition earlier_or_same (s1 : Z) (d1 : list Z) (s2 : Z) (d2 : list Z) : Prop :=
  (s1 < s2 \/ (s1 = s2 /\ dec_val d1 <= dec_val d2))%Z.

(** ** Rounding is monotone *)

Lemma rhe_mono : forall x y, x <= y -> (rhe x <= rhe y)%Z.
Proof.
  intros x y H. destruct (Z_lt_le_dec (Qfloor x) (Qfloor y)) as [L|L].
  - transitivity (Qfloor y).
    + apply rhe_le. pose proof (Qlt_floor x) as U. assert (inject_Z (Qfloor x + 1) <= inject_Z (Qfloor y)) by (apply iz_le; lia). lra.
    + apply rhe_ge. apply Qfloor_le.
  - assert (E : Qfloor x = Qfloor y) by (apply Z.le_antisymm; [now apply Qfloor_resp_le|exact L]).
    unfold rhe. rewrite <- E. set (f := Qfloor x). clearbody f.
    destruct (x - inject_Z f ?= 1 # 2) eqn:C1; destruct (y - inject_Z f ?= 1 # 2) eqn:C2; destruct (Z.even f); try lia; exfalso;
    first [apply Qeq_alt in C1 | apply Qlt_alt in C1 | apply Qgt_alt in C1]; first [apply Qeq_alt in C2 | apply Qlt_alt in C2 | apply Qgt_alt in C2]; lra.
Qed.

Lemma scale_le : forall a b u, 0 < u -> (a <= b)%Z -> inject_Z a * u <= inject_Z b * u.
Proof. intros a b u U H. apply Qmult_le_compat_r; [now apply iz_le|lra]. Qed.

(** [rnd x] against the ends of the binade of [x]. *)
Lemma rnd_binade : forall x e u, u = pow2 (e - 52) -> 0 < u -> rnd x = inject_Z (rhe (x / u)) * u ->
  u * inject_Z (2 ^ 52) <= Qabs x -> Qabs x < u * inject_Z (2 ^ 53) ->
  (0 < x -> pow2 e <= rnd x /\ rnd x <= pow2 (e + 1)) /\ (x < 0 -> - pow2 (e + 1) <= rnd x /\ rnd x <= - pow2 e).
Proof.
  intros x e u Eu Hu -> L U.
  assert (P1 : pow2 e == u * inject_Z (2 ^ 52)) by (rewrite Eu, <- pow2_add by lia; replace (e - 52 + 52)%Z with e by lia; reflexivity).
  assert (P2 : pow2 (e + 1) == u * inject_Z (2 ^ 53)) by (rewrite Eu, <- pow2_add by lia; replace (e - 52 + 53)%Z with (e + 1)%Z by lia; reflexivity).
  rewrite P1, P2. pose proof (div_mul x u Hu) as D. set (y := x / u) in *. clearbody y. split; intro S.
  - rewrite Qabs_pos in L, U by lra. split.
    + setoid_replace (u * inject_Z (2 ^ 52)) with (inject_Z (2 ^ 52) * u) by ring. apply scale_le; auto. apply rhe_ge. rewrite <- D in L. apply (Qmult_le_r _ _ u Hu). lra.
    + setoid_replace (u * inject_Z (2 ^ 53)) with (inject_Z (2 ^ 53) * u) by ring. apply scale_le; auto. apply rhe_le. rewrite <- D in U. apply (Qmult_le_r _ _ u Hu). lra.
  - rewrite Qabs_neg in L, U by lra. split.
    + setoid_replace (- (u * inject_Z (2 ^ 53))) with (inject_Z (- 2 ^ 53) * u) by (rewrite inject_Z_opp; ring). apply scale_le; auto. apply rhe_ge. rewrite <- D in U. apply (Qmult_le_r _ _ u Hu). rewrite inject_Z_opp. lra.
    + setoid_replace (- (u * inject_Z (2 ^ 52))) with (inject_Z (- 2 ^ 52) * u) by (rewrite inject_Z_opp; ring). apply scale_le; auto. apply rhe_le. rewrite <- D in L. apply (Qmult_le_r _ _ u Hu). rewrite inject_Z_opp. lra.
Qed.

Lemma rnd_mono : forall x y, x <= y -> rnd x <= rnd y.
Proof.
  intros x y H. destruct (rnd_cases x) as [[E1 R1]|(e & u & Eu & Hu & R1 & L1 & U1 & N1)]; destruct (rnd_cases y) as [[E2 R2]|(e' & u' & Eu' & Hu' & R2 & L2 & U2 & N2)].
  - rewrite R1, R2. lra.
  - rewrite R1. apply rnd_pos. lra.
  - rewrite R2. assert (x < 0) by (destruct (Qlt_le_dec x 0); auto; exfalso; apply N1; lra). pose proof (rnd_neg x H0). lra.
  - destruct (rnd_binade x e u Eu Hu R1 L1 U1) as [P1 M1]. destruct (rnd_binade y e' u' Eu' Hu' R2 L2 U2) as [P2 M2].
    assert (B1 : pow2 e <= Qabs x /\ Qabs x < pow2 (e + 1)).
    { rewrite Eu in L1, U1. rewrite <- pow2_add in L1, U1 by lia. replace (e - 52 + 52)%Z with e in L1 by lia. replace (e - 52 + 53)%Z with (e + 1)%Z in U1 by lia. auto. }
    assert (B2 : pow2 e' <= Qabs y /\ Qabs y < pow2 (e' + 1)).
    { rewrite Eu' in L2, U2. rewrite <- pow2_add in L2, U2 by lia. replace (e' - 52 + 52)%Z with e' in L2 by lia. replace (e' - 52 + 53)%Z with (e' + 1)%Z in U2 by lia. auto. }
    destruct (Qlt_le_dec x 0) as [SX|SX]; destruct (Qlt_le_dec y 0) as [SY|SY].
    + rewrite Qabs_neg in B1, B2 by lra. destruct (Z_lt_le_dec e' e) as [K|K].
      * pose proof (pow2_mono (e' + 1) e ltac:(lia)). destruct (M1 SX), (M2 SY). lra.
      * destruct (Z.eq_dec e e') as [->|NE].
        { rewrite <- Eu' in Eu. subst u. rewrite R1, R2. apply scale_le; auto. apply rhe_mono. apply (Qmult_le_r _ _ u' Hu'). rewrite !div_mul by auto. exact H. }
        { pose proof (pow2_mono (e + 1) e' ltac:(lia)). lra. }
    + pose proof (rnd_neg x SX). pose proof (rnd_pos y SY). lra.
    + exfalso. lra.
    + assert (X0 : 0 < x) by (destruct (Qlt_le_dec 0 x); auto; exfalso; apply N1; lra). assert (Y0 : 0 < y) by lra.
      rewrite Qabs_pos in B1, B2 by lra. destruct (Z_lt_le_dec e e') as [K|K].
      * pose proof (pow2_mono (e + 1) e' ltac:(lia)). destruct (P1 X0), (P2 Y0). lra.
      * destruct (Z.eq_dec e e') as [->|NE].
        { rewrite <- Eu' in Eu. subst u. rewrite R1, R2. apply scale_le; auto. apply rhe_mono. apply (Qmult_le_r _ _ u' Hu'). rewrite !div_mul by auto. exact H. }
        { pose proof (pow2_mono (e' + 1) e ltac:(lia)). lra. }
Qed.

(** ** Proof *)

Lemma seconds_mono : forall tb t1 t2, usual tb t1 -> usual tb t2 -> (t1 <= t2)%Z ->
  toSeconds (to_u 64 (t1 - tb_rdtsc tb)) (tb_cps tb) <= toSeconds (to_u 64 (t2 - tb_rdtsc tb)) (tb_cps tb).
Proof.
  intros tb t1 t2 (C & D1 & _) (_ & D2 & _) H. unfold toSeconds. rewrite !to_s_diff by auto. apply rnd_mono.
  apply (Qmult_le_r _ _ (tb_cps tb) C). rewrite !div_mul by auto. apply rnd_mono. apply iz_le. lia.
Qed.

Lemma qtrunc_mono : forall x y, x <= y -> (qtrunc x <= qtrunc y)%Z.
Proof.
  intros x y H. destruct (qtrunc_spec x) as [X1 X2]. destruct (qtrunc_spec y) as [Y1 Y2].
  assert (G : forall a b : Z, inject_Z a < inject_Z b + 1 -> (a <= b)%Z).
  { intros a b K. destruct (Z_le_gt_dec a b) as [|L]; auto. exfalso. assert (inject_Z (b + 1) <= inject_Z a) by (apply iz_le; lia). rewrite inject_Z_plus in H0. change (inject_Z 1) with 1 in H0. lra. }
  destruct (Qlt_le_dec x 0) as [SX|SX]; destruct (Qlt_le_dec y 0) as [SY|SY].
  - destruct X2 as (A & B & _); [lra|]. destruct Y2 as (A' & B' & _); [lra|]. apply G. lra.
  - destruct X2 as (_ & _ & A); [lra|]. destruct Y1 as (_ & _ & B); [lra|]. lia.
  - exfalso. lra.
  - destruct X1 as (A & B & _); [lra|]. destruct Y1 as (A' & B' & _); [lra|]. apply G. lra.
Qed.

(** The parts of a time, and where they lie. *)
Lemma abs_parts : forall tb ts, usual tb ts -> exists s w n,
  s = toSeconds (to_u 64 (ts - tb_rdtsc tb)) (tb_cps tb) /\ w = qtrunc s /\ n = rnd (1000000000 * (rnd (s - rnd (inject_Z w)))) /\
  rnd (s - rnd (inject_Z w)) == s - inject_Z w /\
  abs_time tb ts = (if Qlt_le_dec n 0 then (w - 1 + tb_unixTime tb, rnd (n + 1000000000))%Z else (w + tb_unixTime tb, n)%Z).
Proof.
  intros tb ts U. eexists. eexists. eexists. split; [reflexivity|]. split; [reflexivity|]. split; [reflexivity|]. split; [apply frac_exact; exact (seconds_bound tb ts U)|].
  unfold abs_time. destruct (Qlt_le_dec _ 0); reflexivity.
Qed.

Theorem C54_never_backwards : forall tb t1 t2, usual tb t1 -> usual tb t2 -> (t1 <= t2)%Z ->
  earlier_or_same (fst (abs_time tb t1)) (nanos_text (snd (abs_time tb t1)))
                  (fst (abs_time tb t2)) (nanos_text (snd (abs_time tb t2))).
Proof.
  intros tb t1 t2 U1 U2 H. pose proof (seconds_mono tb t1 t2 U1 U2 H) as SM.
  destruct (abs_time_err tb t1 U1) as (B1 & _). destruct (abs_time_err tb t2 U2) as (B2 & _).
  destruct (text_spec _ B1) as (V1 & _). destruct (text_spec _ B2) as (V2 & _).
  unfold earlier_or_same. rewrite V1, V2.
  destruct (abs_parts tb t1 U1) as (s1 & w1 & n1 & S1 & W1 & N1 & F1 & A1). destruct (abs_parts tb t2 U2) as (s2 & w2 & n2 & S2 & W2 & N2 & F2 & A2).
  rewrite <- S1, <- S2 in SM. rewrite A1 in *. rewrite A2 in *. pose proof (qtrunc_mono _ _ SM) as WM. rewrite <- W1, <- W2 in WM.
  set (f1 := rnd (s1 - rnd (inject_Z w1))) in *. set (f2 := rnd (s2 - rnd (inject_Z w2))) in *.
  assert (FM : w1 = w2 -> n1 <= n2) by (intros E; rewrite N1, N2; apply rnd_mono; rewrite F1, F2, E; lra).
  destruct (Qlt_le_dec n1 0) as [K1|K1]; destruct (Qlt_le_dec n2 0) as [K2|K2]; cbn [fst snd] in *.
  - destruct (Z.eq_dec w1 w2) as [E|E]; [right|left; lia]. split; [lia|]. apply rhe_mono, rnd_mono. specialize (FM E). lra.
  - left. lia.
  - assert (G2 : f2 < 0) by (destruct (Qlt_le_dec f2 0) as [|G]; auto; exfalso; pose proof (rnd_pos (1000000000 * f2) ltac:(lra)); rewrite <- N2 in *; lra).
    assert (G1 : 0 <= f1) by (destruct (Qlt_le_dec f1 0) as [G|]; auto; exfalso; pose proof (rnd_neg (1000000000 * f1) ltac:(lra)); rewrite <- N1 in *; lra).
    assert (X2 : s2 < 0). { destruct (Qlt_le_dec s2 0) as [|G]; auto. exfalso. destruct (proj1 (qtrunc_spec s2) G) as (X & _). rewrite <- W2 in X. lra. }
    destruct (proj2 (qtrunc_spec s1) ltac:(lra)) as (X1 & _). rewrite <- W1 in X1.
    assert (WL : (w1 < w2)%Z). { rewrite Zlt_Qlt. lra. }
    destruct (Z.eq_dec w1 (w2 - 1)) as [E|E]; [right|left; lia]. split; [lia|].
    assert (N0 : n1 <= inject_Z 0). { rewrite N1. apply rnd_le_int; [change (inject_Z 0) with 0; lra|]. apply Qabs_Qlt_condition. change (inject_Z (2 ^ 53)) with (9007199254740992 # 1). lra. }
    apply rhe_le in N0. lia.
  - destruct (Z.eq_dec w1 w2) as [E|E]; [right|left; lia]. split; [lia|]. apply rhe_mono. auto.
Qed.
Print Assumptions C54_never_backwards.

(** One cycle apart around a full second at 2.4 GHz, where ten digits are printed. *)
Example C54_instance : usual tb24 (1000 + 2399999999) /\ usual tb24 (1000 + 2400000000) /\
  nanos_text (snd (abs_time tb24 (1000 + 2399999999))) = chars "1000000000" /\ fst (abs_time tb24 (1000 + 2400000000)) = 1700000001%Z /\
  nanos_text (snd (abs_time tb24 (1000 + 2400000000))) = chars "000000000".
Proof. unfold usual, tb24, elapsed. cbn [tb_cps tb_rdtsc]. repeat split; try (vm_compute; reflexivity); vm_compute; discriminate. Qed.
