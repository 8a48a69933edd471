(** Rounding errors. *)
From Coq Require Import QArith Qabs Qround Lqa.
From Verif Require Import Base BaseProofs Chars Preproc PreprocProofs TimeFmt.
Open Scope Q_scope.

Lemma iz_le : forall a b : Z, (a <= b)%Z -> inject_Z a <= inject_Z b.
Proof. intros a b H. now rewrite <- Zle_Qle. Qed.
Lemma iz_lt : forall a b : Z, (a < b)%Z -> inject_Z a < inject_Z b.
Proof. intros a b H. now rewrite <- Zlt_Qlt. Qed.

Lemma pow2_pos : forall e, 0 < pow2 e.
Proof.
  intro e. unfold pow2. destruct (0 <=? e)%Z eqn:E.
  - change 0 with (inject_Z 0). apply iz_lt. apply Z.pow_pos_nonneg; lia.
  - apply Qinv_lt_0_compat. change 0 with (inject_Z 0). apply iz_lt. apply Z.pow_pos_nonneg; lia.
Qed.

Lemma pow2_nonneg_add : forall a b, (0 <= a)%Z -> (0 <= b)%Z -> inject_Z (2 ^ (a + b)) == inject_Z (2 ^ a) * inject_Z (2 ^ b).
Proof. intros. rewrite Z.pow_add_r by lia. now rewrite inject_Z_mult. Qed.

Lemma pow2_S : forall e, pow2 (e + 1) == 2 * pow2 e.
Proof.
  intro e. unfold pow2. destruct (0 <=? e)%Z eqn:E.
  - replace (0 <=? e + 1)%Z with true by lia. rewrite pow2_nonneg_add by lia. rewrite Qmult_comm. reflexivity.
  - destruct (Z.eq_dec e (-1)) as [->|N]; [reflexivity|].
    replace (0 <=? e + 1)%Z with false by lia.
    replace (- e)%Z with (- (e + 1) + 1)%Z by lia. rewrite pow2_nonneg_add by lia.
    set (x := inject_Z (2 ^ (- (e + 1)))).
    assert (0 < x).
    { unfold x. change 0 with (inject_Z 0). apply iz_lt. apply Z.pow_pos_nonneg; lia. }
    change (inject_Z (2 ^ 1)) with 2. field. intro X. rewrite X in H. discriminate H.
Qed.

Lemma pow2_add_nat : forall (n : nat) a, pow2 (a + Z.of_nat n) == pow2 a * inject_Z (2 ^ Z.of_nat n).
Proof.
  induction n as [|n IH]; intro a.
  - rewrite Z.add_0_r. change (inject_Z (2 ^ Z.of_nat 0)) with 1. ring.
  - rewrite Nat2Z.inj_succ. unfold Z.succ. rewrite Z.add_assoc, pow2_S, IH.
    rewrite (pow2_nonneg_add (Z.of_nat n) 1) by lia. change (inject_Z (2 ^ 1)) with 2. ring.
Qed.

Lemma pow2_add : forall a b, (0 <= b)%Z -> pow2 (a + b) == pow2 a * inject_Z (2 ^ b).
Proof. intros a b H. pose proof (pow2_add_nat (Z.to_nat b) a) as E. now rewrite Z2Nat.id in E by lia. Qed.

Lemma pow2_mono : forall a b, (a <= b)%Z -> pow2 a <= pow2 b.
Proof.
  intros a b H. replace b with (a + (b - a))%Z by lia. rewrite pow2_add by lia.
  pose proof (pow2_pos a). assert (1 <= inject_Z (2 ^ (b - a))).
  { change 1 with (inject_Z 1). apply iz_le. assert (0 < 2 ^ (b - a))%Z by (apply Z.pow_pos_nonneg; lia). lia. }
  nra.
Qed.

(** ** Rounding to integers *)
Lemma rhe_near : forall x, Qabs (inject_Z (rhe x) - x) <= 1 # 2.
Proof.
  intro x. apply Qabs_Qle_condition. unfold rhe.
  pose proof (Qfloor_le x) as L. pose proof (Qlt_floor x) as U. rewrite inject_Z_plus in U. change (inject_Z 1) with 1 in U.
  set (f := Qfloor x) in *. clearbody f.
  destruct (x - inject_Z f ?= 1 # 2) eqn:C.
  - apply Qeq_alt in C. destruct (Z.even f); rewrite ?inject_Z_plus; change (inject_Z 1) with 1; split; lra.
  - apply Qlt_alt in C. split; lra.
  - apply Qgt_alt in C. rewrite inject_Z_plus; change (inject_Z 1) with 1. split; lra.
Qed.

Lemma iz_half : forall a b : Z, inject_Z a <= inject_Z b + (1 # 2) -> (a <= b)%Z.
Proof.
  intros a b H. destruct (Z_le_gt_dec a b) as [|G]; auto. exfalso.
  assert (inject_Z (b + 1) <= inject_Z a) by (apply iz_le; lia). rewrite inject_Z_plus in H0. change (inject_Z 1) with 1 in H0. lra.
Qed.

Lemma rhe_le : forall x M, x <= inject_Z M -> (rhe x <= M)%Z.
Proof. intros x M H. pose proof (rhe_near x) as N. apply Qabs_Qle_condition in N. apply iz_half. lra. Qed.
Lemma rhe_ge : forall x M, inject_Z M <= x -> (M <= rhe x)%Z.
Proof. intros x M H. pose proof (rhe_near x) as N. apply Qabs_Qle_condition in N. apply iz_half. lra. Qed.
Lemma rhe_int : forall x M, x == inject_Z M -> rhe x = M.
Proof. intros x M H. apply Z.le_antisymm; [apply rhe_le|apply rhe_ge]; rewrite H; apply Qle_refl. Qed.

(** ** Rounding to 53 bits *)
Lemma log2_split : forall p, (0 < p)%Z -> inject_Z (2 ^ Z.log2 p) <= inject_Z p /\ inject_Z p < inject_Z (2 ^ (Z.log2 p + 1)).
Proof. intros p H. pose proof (Z.log2_spec p H) as [A B]. split; [now apply iz_le|now apply iz_lt]. Qed.

Lemma pow2_sub : forall a b, (0 <= a)%Z -> (0 <= b)%Z -> pow2 (a - b) * inject_Z (2 ^ b) == inject_Z (2 ^ a).
Proof.
  intros a b Ha Hb. rewrite <- pow2_add by lia. replace (a - b + b)%Z with a by lia. unfold pow2.
  replace (0 <=? a)%Z with true by lia. reflexivity.
Qed.

Lemma log2q_spec : forall x, 0 < x -> pow2 (log2q x) <= x /\ x < pow2 (log2q x + 1).
Proof.
  intros [p q] H. assert (Hp : (0 < p)%Z) by (unfold Qlt in H; cbn in H; lia).
  unfold log2q. cbn [Qnum Qden].
  destruct (log2_split p Hp) as [A B]. destruct (log2_split (Zpos q) ltac:(lia)) as [C D].
  pose proof (Z.log2_nonneg p). pose proof (Z.log2_nonneg (Zpos q)).
  set (a := Z.log2 p) in *. set (b := Z.log2 (Zpos q)) in *.
  assert (X : (p # q) * inject_Z (Zpos q) == inject_Z p).
  { unfold Qeq, Qmult, inject_Z; cbn. lia. }
  assert (QP : 0 < inject_Z (Zpos q)) by reflexivity.
  pose proof (pow2_pos (a - b)) as KP.
  pose proof (pow2_sub a b ltac:(lia) ltac:(lia)) as S1.
  assert (S2 : inject_Z (2 ^ (a + 1)) == 2 * inject_Z (2 ^ a)) by (rewrite pow2_nonneg_add by lia; change (inject_Z (2 ^ 1)) with 2; ring).
  assert (S3 : inject_Z (2 ^ (b + 1)) == 2 * inject_Z (2 ^ b)) by (rewrite pow2_nonneg_add by lia; change (inject_Z (2 ^ 1)) with 2; ring).
  rewrite S2 in B. rewrite S3 in D.
  set (PA := inject_Z (2 ^ a)) in *. set (PB := inject_Z (2 ^ b)) in *. set (K := pow2 (a - b)) in *.
  set (x := p # q) in *. set (iq := inject_Z (Zpos q)) in *. set (ip := inject_Z p) in *.
  clearbody PA PB x iq ip.
  assert (U : x < 2 * K) by nra.
  assert (L : K <= 2 * x) by nra.
  destruct (Qle_bool K x) eqn:E.
  - apply Qle_bool_iff in E. split; [exact E|]. rewrite pow2_S. exact U.
  - assert (NE : ~ K <= x) by (intro G; apply Qle_bool_iff in G; congruence).
    apply Qnot_le_lt in NE. replace (a - b - 1 + 1)%Z with (a - b)%Z by lia. split; [|exact NE].
    pose proof (pow2_S (a - b - 1)) as S4. replace (a - b - 1 + 1)%Z with (a - b)%Z in S4 by lia. fold K in S4. lra.
Qed.

(** The unit in the last place of [x], and the integer it is multiplied with. *)
Lemma rnd_cases : forall x, (x == 0 /\ rnd x = 0) \/
  exists e u, u = pow2 (e - 52) /\ 0 < u /\ rnd x = inject_Z (rhe (x / u)) * u /\
    u * inject_Z (2 ^ 52) <= Qabs x /\ Qabs x < u * inject_Z (2 ^ 53) /\ ~ x == 0.
Proof.
  intro x. unfold rnd. destruct (Qeq_bool x 0) eqn:E.
  - left. apply Qeq_bool_iff in E. auto.
  - right. apply Qeq_bool_neq in E.
    assert (P : 0 < Qabs x).
    { destruct (Qlt_le_dec 0 (Qabs x)) as [|G]; auto. exfalso. apply E.
      apply Qabs_Qle_condition in G. lra. }
    destruct (log2q_spec _ P) as [A B]. exists (log2q (Qabs x)), (pow2 (log2q (Qabs x) - 52)).
    pose proof (pow2_pos (log2q (Qabs x) - 52)) as U.
    split; [reflexivity|split; [exact U|split; [reflexivity|]]].
    rewrite <- !pow2_add by lia.
    replace (log2q (Qabs x) - 52 + 52)%Z with (log2q (Qabs x)) by lia.
    replace (log2q (Qabs x) - 52 + 53)%Z with (log2q (Qabs x) + 1)%Z by lia. auto.
Qed.

Definition eps : Q := 1 # (2 ^ 53).

Lemma div_mul : forall x u, 0 < u -> x / u * u == x.
Proof. intros x u H. field. intro X. rewrite X in H. discriminate H. Qed.

Lemma rnd_err : forall x, Qabs (rnd x - x) <= Qabs x * eps.
Proof.
  intro x. destruct (rnd_cases x) as [[E ->]|(e & u & -> & Hu & -> & L & _ & _)].
  - rewrite E. vm_compute. discriminate.
  - set (u := pow2 (e - 52)) in *. clearbody u.
    pose proof (rhe_near (x / u)) as N. apply Qabs_Qle_condition in N. destruct N as [N1 N2].
    set (n := inject_Z (rhe (x / u))) in *. clearbody n.
    pose proof (div_mul x u Hu) as D. set (y := x / u) in *. clearbody y.
    apply Qabs_Qle_condition. change (inject_Z (2 ^ 52)) with (4503599627370496 # 1) in L.
    assert (HB : u * (1 # 2) <= Qabs x * eps) by (unfold eps; change (2 ^ 53)%positive with 9007199254740992%positive; lra).
    split; nra.
Qed.

Lemma rnd_le_int : forall x (M : Z), x <= inject_Z M -> Qabs x < inject_Z (2 ^ 53) -> rnd x <= inject_Z M.
Proof.
  intros x M H B. destruct (rnd_cases x) as [[E ->]|(e & u & E & Hu & -> & L & _ & _)]; [now rewrite <- E|].
  assert (He : (e <= 52)%Z).
  { destruct (Z_le_gt_dec e 52) as [|G]; auto. exfalso.
    assert (pow2 1 <= u) by (rewrite E; apply pow2_mono; lia). change (pow2 1) with 2 in H0.
    change (inject_Z (2 ^ 52)) with (4503599627370496 # 1) in L. change (inject_Z (2 ^ 53)) with (9007199254740992 # 1) in B. lra. }
  pose proof (pow2_add (e - 52) (52 - e) ltac:(lia)) as A. rewrite <- E in A. replace (e - 52 + (52 - e))%Z with 0%Z in A by lia.
  change (pow2 0) with 1 in A.
  assert (R : (rhe (x / u) <= M * 2 ^ (52 - e))%Z).
  { apply rhe_le. rewrite inject_Z_mult. pose proof (div_mul x u Hu) as D.
    set (y := x / u) in *. set (k := inject_Z (2 ^ (52 - e))) in *. clearbody y k. clear E.
    assert (0 < k). { destruct (Qlt_le_dec 0 k); auto. nra. }
    rewrite <- D in H. assert (y * u * k <= inject_Z M * k) by (apply Qmult_le_compat_r; lra).
    assert (y * u * k == y) by (setoid_replace (y * u * k) with (y * (u * k)) by ring; rewrite <- A; ring). lra. }
  apply iz_le in R. rewrite inject_Z_mult in R.
  set (n := inject_Z (rhe (x / u))) in *. set (k := inject_Z (2 ^ (52 - e))) in *. clearbody n k.
  assert (n * u <= inject_Z M * k * u) by (apply Qmult_le_compat_r; lra).
  assert (inject_Z M * k * u == inject_Z M) by (setoid_replace (inject_Z M * k * u) with (inject_Z M * (u * k)) by ring; rewrite <- A; ring). lra.
Qed.

Lemma rnd_pos : forall x, 0 <= x -> 0 <= rnd x.
Proof.
  intros x H. pose proof (rnd_err x) as E. apply Qabs_Qle_condition in E. rewrite Qabs_pos in E by auto.
  unfold eps in E. change (2 ^ 53)%positive with 9007199254740992%positive in E. lra.
Qed.

Lemma rnd_neg : forall x, x < 0 -> rnd x < 0.
Proof.
  intros x H. pose proof (rnd_err x) as E. apply Qabs_Qle_condition in E. rewrite Qabs_neg in E by lra.
  unfold eps in E. change (2 ^ 53)%positive with 9007199254740992%positive in E. lra.
Qed.

(** Numbers of 53 bits are kept. *)
Lemma rnd_exact : forall x (n k : Z), x == inject_Z n * pow2 k -> (Z.abs n <= 2 ^ 53)%Z -> rnd x == x.
Proof.
  intros x n k E Hn. destruct (rnd_cases x) as [[E0 ->]|(e & u & Eu & Hu & -> & L & U & NZ)]; [now rewrite E0|].
  assert (Int : exists m, x / u == inject_Z m).
  { destruct (Z_le_gt_dec (e - 52) k) as [G|G].
    - exists (n * 2 ^ (k - (e - 52)))%Z. rewrite inject_Z_mult.
      pose proof (pow2_add (e - 52) (k - (e - 52)) ltac:(lia)) as A. rewrite <- Eu in A.
      replace (e - 52 + (k - (e - 52)))%Z with k in A by lia. rewrite E, A. field. intro X. rewrite X in Hu. discriminate Hu.
    - (* x is a power of two *)
      assert (PK := pow2_pos k).
      pose proof (pow2_add k (e - 52 - k) ltac:(lia)) as A. replace (k + (e - 52 - k))%Z with (e - 52)%Z in A by lia. rewrite <- Eu in A.
      assert (G2 : (2 <= 2 ^ (e - 52 - k))%Z) by (change 2%Z with (2 ^ 1)%Z at 1; apply Z.pow_le_mono_r; lia).
      apply iz_le in G2. change (inject_Z 2) with 2 in G2.
      assert (AX : Qabs x == inject_Z (Z.abs n) * pow2 k).
      { rewrite E, Qabs_Qmult, (Qabs_pos (pow2 k)) by lra. apply Qmult_comp; [|reflexivity].
        unfold Qabs, inject_Z. reflexivity. }
      apply iz_le in Hn. change (inject_Z (2 ^ 53)) with (9007199254740992 # 1) in Hn.
      change (inject_Z (2 ^ 52)) with (4503599627370496 # 1) in L.
      set (j := inject_Z (2 ^ (e - 52 - k))) in *. set (p := pow2 k) in *. set (a := inject_Z (Z.abs n)) in *.
      assert (AP : a * p <= (9007199254740992 # 1) * p) by (apply Qmult_le_compat_r; lra).
      assert (JP : 2 * p <= j * p) by (apply Qmult_le_compat_r; lra).
      assert (Up2 : u == 2 * p) by (clearbody j p a; lra).
      assert (An : a == 9007199254740992 # 1).
      { assert (AP2 : (9007199254740992 # 1) * p <= a * p) by (clearbody j p a; lra).
        apply Qmult_le_r in AP, AP2; auto; lra. }
      assert (Zn : (Z.abs n = 2 ^ 53)%Z).
      { unfold a in An. change (9007199254740992 # 1) with (inject_Z (2 ^ 53)) in An. apply (proj1 (inject_Z_injective _ _)) in An. exact An. }
      destruct (Z.abs_eq_or_opp n) as [N|N]; rewrite Zn in N.
      + exists (2 ^ 52)%Z. rewrite E, <- N, Up2. fold p. change (inject_Z (2 ^ 53)) with (2 * inject_Z (2 ^ 52)). field. intro X. unfold p in *. rewrite X in PK. discriminate PK.
      + exists (- 2 ^ 52)%Z. assert (N' : n = (- 2 ^ 53)%Z) by lia. rewrite E, N', Up2. fold p.
        change (inject_Z (- 2 ^ 53)) with (2 * inject_Z (- 2 ^ 52)). field. intro X. unfold p in *. rewrite X in PK. discriminate PK. }
  destruct Int as (m & Em). rewrite (rhe_int _ _ Em), <- Em. now apply div_mul.
Qed.

(** A rounded number is an integer of 53 bits times a power of two. *)
Lemma rnd_form : forall x, exists n k, rnd x == inject_Z n * pow2 k /\ (Z.abs n <= 2 ^ 53)%Z.
Proof.
  intro x. destruct (rnd_cases x) as [[E ->]|(e & u & Eu & Hu & -> & L & U & NZ)].
  - exists 0%Z, 0%Z. split; [reflexivity|lia].
  - exists (rhe (x / u)), (e - 52)%Z. split; [now rewrite <- Eu|].
    pose proof (div_mul x u Hu) as D.
    assert (UA : - inject_Z (2 ^ 53) <= x / u /\ x / u <= inject_Z (2 ^ 53)).
    { assert (UA : Qabs x <= u * inject_Z (2 ^ 53)) by lra. apply Qabs_Qle_condition in UA.
      set (y := x / u) in *. set (k := inject_Z (2 ^ 53)) in *. clearbody y k.
      split; nra. }
    destruct UA as [U1 U2]. apply rhe_le in U2.
    assert (- 2 ^ 53 <= rhe (x / u))%Z by (apply rhe_ge; rewrite inject_Z_opp; exact U1). lia.
Qed.

(** ** Truncation *)
Lemma qtrunc_spec : forall x,
  (0 <= x -> inject_Z (qtrunc x) <= x /\ x < inject_Z (qtrunc x) + 1 /\ (0 <= qtrunc x)%Z) /\
  (x <= 0 -> x <= inject_Z (qtrunc x) /\ inject_Z (qtrunc x) - 1 < x /\ (qtrunc x <= 0)%Z).
Proof.
  intros [p q]. unfold qtrunc, Qle, Qlt, inject_Z, Qplus, Qminus, Qopp. cbn -[Z.quot Z.mul].
  pose proof (Z.quot_rem' p (Zpos q)) as E. rewrite ?Z.mul_1_r, ?Pos.mul_1_r in *.
  split; intro H.
  - pose proof (Z.rem_bound_pos p (Zpos q) ltac:(lia) ltac:(lia)). pose proof (Z.quot_pos p (Zpos q) ltac:(lia) ltac:(lia)).
    generalize dependent (Z.quot p (Zpos q)). generalize dependent (Z.rem p (Zpos q)). intros r Hr w E Hw. split; [|split]; nia.
  - pose proof (Z.rem_bound_pos (- p) (Zpos q) ltac:(lia) ltac:(lia)) as B. rewrite Z.rem_opp_l in B by lia.
    pose proof (Z.quot_pos (- p) (Zpos q) ltac:(lia) ltac:(lia)) as C. rewrite Z.quot_opp_l in C by lia.
    generalize dependent (Z.quot p (Zpos q)). generalize dependent (Z.rem p (Zpos q)). intros r Hr w E Hw. split; [|split]; nia.
Qed.
