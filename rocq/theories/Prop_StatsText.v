(** C87: the text of getStats. *)
From Coq Require Import QArith Qabs Qround Lqa.
From Verif Require Import Base BaseProofs RingProofs DecodeProofs Chars Fmt Preproc PreprocProofs TimeFmt TimeProofs Prop_TimeOrder LineFmt LineProofs Prop_TraceText Cycles Prop_Cycles RcdfText Prop_RcdfText Prop_AggText Ring Runtime Counters StatsText.
Open Scope Z_scope.
Ltac Zify.zify_post_hook ::= Z.div_mod_to_equations.

(** ** Specification *)

(** [txt] shows [x] with [p] decimals, up to half a unit of the last one and the
    precision of a few operations on doubles. *)
Definition decimals (p : nat) (txt : list Z) (x : Q) : Prop :=
  exists v, number p 0 txt v /\ (Qabs (v - x) <= (1 # 2) / inject_Z (10 ^ Z.of_nat p) + x * (1 # 2 ^ 48))%Q.

Definition secs (cps : Q) (cycles : Z) : Q := (inject_Z cycles / cps)%Q.

Definition C87_stmt : Prop := forall cps c t start stop now, (1 <= cps <= inject_Z (2 ^ 64))%Q ->
  0 <= n_read c < 2 ^ 64 -> 0 < n_written c < 2 ^ 64 -> 0 <= n_pad c < 2 ^ 64 -> 0 < n_logs c < 2 ^ 64 -> 0 < n_writes c < 2 ^ 32 ->
  0 <= t_io t -> 0 <= t_compressing t < 2 ^ 63 -> 0 <= t_active t < 2 ^ 63 ->
  0 <= start <= stop -> 0 < t_io t + (stop - start) < 2 ^ 63 -> 0 < now - t_born t < 2 ^ 63 ->
  let io := t_io t + (stop - start) in
  let disk := secs cps io in let compress := secs cps (t_compressing t) in let work := secs cps (io + t_compressing t) in
  let out := inject_Z (n_written c) in let mb := (out / 1000000)%Q in let events := inject_Z (n_logs c) in
  exists L MB W C F S A V P MW NW MD ND MF BE NE NC Lo Hi R O X, getStats cps c t start stop now = Some (concat [
    [13; 10] ++ chars "Wrote " ++ L ++ chars " events (" ++ MB ++ chars " MB) in " ++ W ++ chars " seconds (" ++ C ++ chars " seconds spent compressing)" ++ [13; 10];
    chars "There were " ++ F ++ chars " file flushes and the final sync time was " ++ S ++ chars " sec" ++ [13; 10];
    chars "Compression Thread was active for " ++ A ++ chars " out of " ++ V ++ chars " seconds (" ++ P ++ chars " %)" ++ [13; 10];
    chars "On average, that's" ++ [13; 10; 9] ++ MW ++ chars " MB/s or " ++ NW ++ chars " ns/byte w/ processing" ++ [13; 10];
    [9] ++ MD ++ chars " MB/s or " ++ ND ++ chars " ns/byte disk throughput (min)" ++ [13; 10];
    [9] ++ MF ++ chars " MB per flush with " ++ BE ++ chars " bytes/event" ++ [13; 10];
    [9] ++ NE ++ chars " ns/event in total" ++ [13; 10; 9] ++ NC ++ chars " ns/event compressing" ++ [13; 10];
    chars "The compression ratio was " ++ Lo ++ chars "-" ++ Hi ++ chars "x (" ++ R ++ chars " bytes in, " ++ O ++ chars " bytes out, " ++ X ++ chars " pad bytes)" ++ [10]], io) /\
    (integer L (n_logs c) /\ integer F (n_writes c) /\ integer R (n_read c) /\ integer O (n_written c) /\ integer X (n_pad c)) /\
    (decimals 2 MB mb /\ decimals 3 W work /\ decimals 3 C compress /\ decimals 6 S (secs cps (stop - start))) /\
    (decimals 3 A (secs cps (t_active t)) /\ decimals 3 V (secs cps (now - t_born t)) /\ decimals 2 P (100 * secs cps (t_active t) / secs cps (now - t_born t))%Q) /\
    (decimals 2 MW (mb / work)%Q /\ decimals 2 NW (work * 1000000000 / out)%Q /\ decimals 2 MD (mb / disk)%Q /\ decimals 2 ND (disk * 1000000000 / out)%Q) /\
    (decimals 2 MF (mb / inject_Z (n_writes c))%Q /\ decimals 1 BE (out / events)%Q /\ decimals 2 NE (work * 1000000000 / events)%Q /\ decimals 2 NC (compress * 1000000000 / events)%Q) /\
    (decimals 2 Lo (inject_Z (n_read c) / inject_Z (n_written c + n_pad c))%Q /\ decimals 2 Hi (inject_Z (n_read c) / out)%Q).

(** ** Relative errors *)
Open Scope Q_scope.

Definition near (c x y : Q) : Prop := 0 <= x /\ x * (1 - c) <= y /\ y <= x * (1 + c).

Lemma near_le : forall c d x y, near c x y -> c <= d -> near d x y.
Proof. intros c d x y (A & B & C) D. split; [exact A|]. pose proof (Qmult_le_compat_r _ _ x D A). lra. Qed.

Lemma near_nonneg : forall c x y, near c x y -> c <= 1 -> 0 <= y.
Proof. intros c x y (A & B & C) D. eapply Qle_trans; [|exact B]. apply Qmult_le_0_compat; [exact A|]. lra. Qed.

Lemma near_pos : forall c x y, near c x y -> c < 1 -> 0 < x -> 0 < y.
Proof. intros c x y (A & B & C) D E. eapply Qlt_le_trans; [|exact B]. apply Qmult_lt_0_compat; [exact E|]. lra. Qed.

Lemma near_eq : forall c x x' y y', x == x' -> y == y' -> near c x y -> near c x' y'.
Proof. intros c x x' y y' E F (A & B & C). unfold near. rewrite <- E, <- F. auto. Qed.

Lemma near_rnd : forall c d x y, near c x y -> c <= 1 -> (1 + c) * (1 + eps) <= 1 + d -> 1 - d <= (1 - c) * (1 - eps) -> near d x (rnd y).
Proof.
  intros c d x y N C1 H1 H2. pose proof (near_nonneg _ _ _ N C1) as Y0. destruct N as (A & B & C). destruct (rnd_rel y Y0) as [R1 R2].
  assert (E0 : 0 <= 1 - eps) by discriminate. assert (E1 : 0 <= 1 + eps) by discriminate.
  pose proof (Qmult_le_compat_r _ _ _ B E0) as B1. pose proof (Qmult_le_compat_r _ _ _ C E1) as C2.
  pose proof (Qmult_le_compat_r _ _ x H1 A) as H1'. pose proof (Qmult_le_compat_r _ _ x H2 A) as H2'.
  clear E0 E1. generalize dependent eps. intros ep. intros. split; [exact A|]. split; lra.
Qed.

Lemma near_add : forall c x y u v, near c x y -> near c u v -> near c (x + u) (y + v).
Proof. intros c x y u v (A & B & C) (D & E & F). split; [lra|]. split; lra. Qed.

Lemma near_scale : forall k c x y, 0 <= k -> near c x y -> near c (x * k) (y * k).
Proof.
  intros k c x y K (A & B & C). pose proof (Qmult_le_compat_r _ _ _ B K). pose proof (Qmult_le_compat_r _ _ _ C K). pose proof (Qmult_le_0_compat _ _ A K).
  split; [assumption|]. split; lra.
Qed.

Lemma near_div : forall a b c x y z w, near a x y -> near b z w -> 0 < z -> 0 <= b -> b < 1 -> 0 <= c -> c <= 1 -> 1 + a <= (1 + c) * (1 - b) -> (1 - c) * (1 + b) <= 1 - a -> near c (x / z) (y / w).
Proof.
  intros a b c x y z w (A & B & C) N Z0 B0 B1 C0 C1 H1 H2. pose proof (near_pos _ _ _ N B1 Z0) as W0. destruct N as (D & E & F).
  assert (IZ : 0 <= / z) by (apply Qlt_le_weak, Qinv_lt_0_compat, Z0). assert (Q0 : 0 <= x / z) by (unfold Qdiv; now apply Qmult_le_0_compat).
  assert (XQ : x == x / z * z) by (field; lra). set (q := x / z) in *. split; [exact Q0|]. split.
  - apply Qle_shift_div_l; [exact W0|]. assert (K : 0 <= q * (1 - c)) by (apply Qmult_le_0_compat; [exact Q0|lra]).
    pose proof (Qmult_le_compat_r _ _ _ F K) as F'. assert (X0 : 0 <= q * z) by (apply Qmult_le_0_compat; lra). pose proof (Qmult_le_compat_r _ _ _ H2 X0) as H2'.
    rewrite XQ in B. lra.
  - apply Qle_shift_div_r; [exact W0|]. assert (K : 0 <= q * (1 + c)) by (apply Qmult_le_0_compat; [exact Q0|lra]).
    pose proof (Qmult_le_compat_r _ _ _ E K) as E'. assert (X0 : 0 <= q * z) by (apply Qmult_le_0_compat; lra). pose proof (Qmult_le_compat_r _ _ _ H1 X0) as H1'.
    rewrite XQ in C. lra.
Qed.

Lemma near_int : forall n, (0 <= n)%Z -> near (2 * eps) (inject_Z n) (rnd (inject_Z n)).
Proof.
  intros n N. assert (A : 0 <= inject_Z n) by (change 0 with (inject_Z 0); rewrite <- Zle_Qle; exact N).
  apply (near_rnd 0); [|discriminate|vm_compute; discriminate|vm_compute; discriminate]. split; [exact A|]. split; lra.
Qed.

Lemma near_secs : forall cps d, 0 < cps -> (0 <= d < 2 ^ 63)%Z -> near (4 * eps) (secs cps d) (toSeconds d cps).
Proof.
  intros cps d C L. unfold toSeconds, secs. replace (to_s 64 d) with d by (rewrite <- (signed_diff d) at 1 by lia; f_equal; unfold to_u; lia).
  assert (IC : 0 <= / cps) by (apply Qlt_le_weak, Qinv_lt_0_compat, C). apply (near_rnd (2 * eps)); [|discriminate|vm_compute; discriminate|vm_compute; discriminate].
  unfold Qdiv. apply near_scale; [exact IC|]. apply near_int. lia.
Qed.

Lemma shown : forall p x y, (0 < p)%nat -> near (32 * eps) x y -> decimals p (fixedp p 0 y) x.
Proof.
  intros p x y P N. assert (Y0 : 0 <= y) by (apply (near_nonneg _ _ _ N); discriminate). destruct N as (A & B & C).
  destruct (fixedp_number p 0 y P Y0) as (v & V1 & V2). exists v. split; [exact V1|]. set (h := (1 # 2) / inject_Z (10 ^ Z.of_nat p)) in *. clearbody h.
  assert (E : (1 # 2 ^ 48) == 32 * eps) by reflexivity. rewrite E. clear E. generalize dependent eps. intros ep. intros.
  apply Qabs_Qle_condition in V2. apply Qabs_Qle_condition. lra.
Qed.

(** A rounded quotient. *)
Lemma near_fdiv : forall x y z w, near (10 * eps) x y -> near (8 * eps) z w -> 0 < z -> exists q, fdiv y w = Some q /\ near (32 * eps) (x / z) q.
Proof.
  intros x y z w A B Z0. assert (W0 : 0 < w) by (apply (near_pos _ _ _ B); [reflexivity|exact Z0]). exists (rnd (y / w)). split.
  - unfold fdiv. destruct (Qeq_bool w 0) eqn:E; [apply Qeq_bool_eq in E; lra|reflexivity].
  - apply (near_rnd (20 * eps)); [|discriminate|vm_compute; discriminate|vm_compute; discriminate].
    apply (near_div (10 * eps) (8 * eps)); try assumption; vm_compute; try discriminate; reflexivity.
Qed.

Open Scope Z_scope.

Lemma dec_integer : forall n, 0 <= n -> integer (dec_str n) n.
Proof. intros n H. destruct (dec_str_spec n H) as (A & B & C). exists (dec_str n). split; [exact A|]. split; [exact B|]. left. auto. Qed.

(** ** Lengths *)
Lemma dec_fits : forall n w, 0 <= n < 10 ^ Z.of_nat w -> (0 < w)%nat -> (length (dec_str n) <= w)%nat.
Proof. intros n w H W. pose proof (padded_length w n H W) as E. unfold padded in E. rewrite app_length, repeat_length in E. lia. Qed.

Definition most : Q := inject_Z (2 ^ 128 * 1000000000).

Lemma fixed_fits : forall p x y, (0 < p <= 6)%nat -> near (32 * eps) x y -> (x <= most)%Q -> (length (fixedp p 0 y) <= 60)%nat.
Proof.
  intros p x y P N X. assert (Y0 : (0 <= y)%Q) by (apply (near_nonneg _ _ _ N); discriminate).
  assert (Y1 : (y <= inject_Z (10 ^ 49 - 1))%Q).
  { destruct N as (A & _ & C). eapply Qle_trans; [exact C|]. eapply Qle_trans; [apply Qmult_le_compat_r; [exact X|discriminate]|]. vm_compute. discriminate. }
  unfold fixedp. set (ten := 10 ^ Z.of_nat p). assert (T1 : 10 <= ten) by (change 10 with (10 ^ 1) at 1; apply Z.pow_le_mono_r; lia).
  assert (QT : (0 <= inject_Z ten)%Q) by (change 0%Q with (inject_Z 0); rewrite <- Zle_Qle; lia).
  set (t := rhe (inject_Z ten * Qabs y)). pose proof (rhe_near (inject_Z ten * Qabs y)) as NE. fold t in NE. rewrite (Qabs_pos y Y0) in NE. apply Qabs_Qle_condition in NE.
  assert (T0 : 0 <= t) by (apply rhe_ge; change (inject_Z 0) with 0%Q; apply Qmult_le_0_compat; [exact QT|apply Qabs_nonneg]).
  assert (T2 : t < ten * 10 ^ 49).
  { pose proof (Qmult_le_compat_r _ _ _ Y1 QT) as K. rewrite <- inject_Z_mult in K. apply Z.lt_le_trans with ((10 ^ 49 - 1) * ten + 1); [|lia]. rewrite Zlt_Qlt, inject_Z_plus. change (inject_Z 1) with 1%Q. lra. }
  assert (D : t / ten < 10 ^ 49) by (apply Z.div_lt_upper_bound; lia). pose proof (Z.div_pos t ten T0 ltac:(lia)).
  pose proof (dec_fits (t / ten) 49 ltac:(change (Z.of_nat 49) with 49; lia) ltac:(lia)) as L1.
  pose proof (padded_length p (t mod ten) ltac:(fold ten; apply Z.mod_pos_bound; lia) ltac:(lia)) as L2.
  destruct (Qlt_le_dec y 0) as [B|_]; [lra|]. rewrite Nat.sub_0_l. cbn [repeat app]. rewrite app_length. cbn [app length]. rewrite L2. lia.
Qed.

Lemma quotient_most : forall x z, (0 <= x)%Q -> (x <= inject_Z (2 ^ 64 * 1000000000))%Q -> (1 / inject_Z (2 ^ 64) <= z)%Q -> (x / z <= most)%Q.
Proof.
  intros x z X0 X Z. assert (Z0 : (0 < z)%Q) by (eapply Qlt_le_trans; [|exact Z]; reflexivity). apply Qle_shift_div_r; [exact Z0|]. eapply Qle_trans; [exact X|].
  assert (M : (0 <= most)%Q) by discriminate. pose proof (Qmult_le_compat_r _ _ _ Z M) as K. rewrite (Qmult_comm most). eapply Qle_trans; [|exact K]. vm_compute. discriminate.
Qed.

Lemma cut_short : forall l, Z.of_nat (length l) <= 1023 -> cut l = l.
Proof. intros l H. unfold cut. apply firstn_all2. lia. Qed.

Ltac lens := intros; rewrite !app_length; repeat match goal with |- context [length (chars ?s)] => let n := eval vm_compute in (length (chars s)) in change (length (chars s)) with n end; cbn [length]; lia.

Lemma line1 : forall a b c d : list Z, (length a <= 60)%nat -> (length b <= 60)%nat -> (length c <= 60)%nat -> (length d <= 60)%nat ->
  Z.of_nat (length ([13; 10] ++ chars "Wrote " ++ a ++ chars " events (" ++ b ++ chars " MB) in " ++ c ++ chars " seconds (" ++ d ++ chars " seconds spent compressing)" ++ [13; 10])) <= 1023.
Proof. lens. Qed.
Lemma line2 : forall a b : list Z, (length a <= 60)%nat -> (length b <= 60)%nat ->
  Z.of_nat (length (chars "There were " ++ a ++ chars " file flushes and the final sync time was " ++ b ++ chars " sec" ++ [13; 10])) <= 1023.
Proof. lens. Qed.
Lemma line3 : forall a b c : list Z, (length a <= 60)%nat -> (length b <= 60)%nat -> (length c <= 60)%nat ->
  Z.of_nat (length (chars "Compression Thread was active for " ++ a ++ chars " out of " ++ b ++ chars " seconds (" ++ c ++ chars " %)" ++ [13; 10])) <= 1023.
Proof. lens. Qed.
Lemma line4 : forall a b : list Z, (length a <= 60)%nat -> (length b <= 60)%nat ->
  Z.of_nat (length (chars "On average, that's" ++ [13; 10; 9] ++ a ++ chars " MB/s or " ++ b ++ chars " ns/byte w/ processing" ++ [13; 10])) <= 1023.
Proof. lens. Qed.
Lemma line5 : forall a b : list Z, (length a <= 60)%nat -> (length b <= 60)%nat ->
  Z.of_nat (length ([9] ++ a ++ chars " MB/s or " ++ b ++ chars " ns/byte disk throughput (min)" ++ [13; 10])) <= 1023.
Proof. lens. Qed.
Lemma line6 : forall a b : list Z, (length a <= 60)%nat -> (length b <= 60)%nat ->
  Z.of_nat (length ([9] ++ a ++ chars " MB per flush with " ++ b ++ chars " bytes/event" ++ [13; 10])) <= 1023.
Proof. lens. Qed.
Lemma line7 : forall a b : list Z, (length a <= 60)%nat -> (length b <= 60)%nat ->
  Z.of_nat (length ([9] ++ a ++ chars " ns/event in total" ++ [13; 10; 9] ++ b ++ chars " ns/event compressing" ++ [13; 10])) <= 1023.
Proof. lens. Qed.
Lemma line8 : forall a b c d e : list Z, (length a <= 60)%nat -> (length b <= 60)%nat -> (length c <= 60)%nat -> (length d <= 60)%nat -> (length e <= 60)%nat ->
  Z.of_nat (length (chars "The compression ratio was " ++ a ++ chars "-" ++ b ++ chars "x (" ++ c ++ chars " bytes in, " ++ d ++ chars " bytes out, " ++ e ++ chars " pad bytes)" ++ [10])) <= 1023.
Proof. lens. Qed.

Lemma dec_short : forall n, 0 <= n < 2 ^ 64 -> (length (dec_str n) <= 60)%nat.
Proof. intros n H. pose proof (dec_fits n 20 ltac:(change (10 ^ Z.of_nat 20) with 100000000000000000000; lia) ltac:(lia)). lia. Qed.

Ltac small := vm_compute; discriminate.

Theorem C87_text : C87_stmt.
Proof.
  intros cps c t start stop now [CP1 CP2] RD WR PD LG NW IO CM AC ST IO1 AL. cbv zeta. unfold getStats. cbv zeta. assert (CP : (0 < cps)%Q) by lra.
  replace (to_u 64 (stop - start)) with (stop - start) by (unfold to_u; lia).
  replace (to_u 64 (t_io t + (stop - start))) with (t_io t + (stop - start)) by (unfold to_u; lia).
  replace (to_u 64 (now - t_born t)) with (now - t_born t) by (unfold to_u; lia).
  set (io := t_io t + (stop - start)) in *. set (al := now - t_born t) in *. set (sy := stop - start) in *.
  pose proof (near_secs cps io CP ltac:(lia)) as N1. pose proof (near_secs cps (t_compressing t) CP ltac:(lia)) as N2. pose proof (near_secs cps (t_active t) CP ltac:(lia)) as N3.
  pose proof (near_secs cps al CP ltac:(lia)) as N4. pose proof (near_secs cps sy CP ltac:(lia)) as N5.
  pose proof (near_int (n_written c) ltac:(lia)) as I1. pose proof (near_int (n_read c) ltac:(lia)) as I2. pose proof (near_int (n_pad c) ltac:(lia)) as I3.
  pose proof (near_int (n_logs c) ltac:(lia)) as I4. pose proof (near_int (n_writes c) ltac:(lia)) as I5.
  assert (P : forall n, 0 < n -> (0 < inject_Z n)%Q) by (intros; change 0%Q with (inject_Z 0); rewrite <- Zlt_Qlt; assumption).
  assert (PS : forall n, 0 < n -> (0 < secs cps n)%Q) by (intros n H; unfold secs; apply Qlt_shift_div_l; [exact CP|]; pose proof (P n H); lra).
  assert (NW1 : near (6 * eps) (secs cps (io + t_compressing t)) (rnd (toSeconds io cps + toSeconds (t_compressing t) cps))).
  { apply (near_rnd (4 * eps)); [|small|small|small]. eapply near_eq; [|reflexivity|exact (near_add _ _ _ _ _ N1 N2)].
    unfold secs. rewrite inject_Z_plus. field. lra. }
  assert (NM : near (4 * eps) (inject_Z (n_written c) / 1000000) (rnd (rnd (inject_Z (n_written c)) / 1000000))).
  { apply (near_rnd (2 * eps)); [|small|small|small]. unfold Qdiv. apply near_scale; [small|exact I1]. }
  set (work := rnd (toSeconds io cps + toSeconds (t_compressing t) cps)) in *. set (mb := rnd (rnd (inject_Z (n_written c)) / 1000000)) in *.
  assert (NA : near (10 * eps) (100 * secs cps (t_active t)) (rnd (100 * toSeconds (t_active t) cps))).
  { apply (near_rnd (4 * eps)); [|small|small|small]. eapply near_eq; [apply Qmult_comm|apply Qmult_comm|]. apply near_scale; [small|exact N3]. }
  assert (G : forall x y, near (6 * eps) x y -> near (10 * eps) (x * 1000000000) (rnd (y * 1000000000))).
  { intros x y H. apply (near_rnd (6 * eps)); [|small|small|small]. apply near_scale; [small|exact H]. }
  assert (G4 : forall x y, near (4 * eps) x y -> near (10 * eps) (x * 1000000000) (rnd (y * 1000000000))).
  { intros x y H. apply G. apply (near_le (4 * eps)); [exact H|small]. }
  assert (NB : near (10 * eps) (inject_Z (n_written c)) (rnd (rnd (inject_Z (n_written c)) * 1))).
  { apply (near_rnd (2 * eps)); [|small|small|small]. eapply near_eq; [reflexivity|symmetry; apply Qmult_1_r|exact I1]. }
  assert (NR : near (10 * eps) (inject_Z (n_read c)) (rnd (1 * rnd (inject_Z (n_read c))))).
  { apply (near_rnd (2 * eps)); [|small|small|small]. eapply near_eq; [reflexivity|symmetry; apply Qmult_1_l|exact I2]. }
  assert (NS : near (8 * eps) (inject_Z (n_written c + n_pad c)) (rnd (rnd (inject_Z (n_written c)) + rnd (inject_Z (n_pad c))))).
  { apply (near_rnd (2 * eps)); [|small|small|small]. rewrite inject_Z_plus. now apply near_add. }
  assert (U2 : forall x y, near (2 * eps) x y -> near (8 * eps) x y) by (intros x y H; apply (near_le (2 * eps)); [exact H|small]).
  assert (U4 : forall x y, near (4 * eps) x y -> near (8 * eps) x y) by (intros x y H; apply (near_le (4 * eps)); [exact H|small]).
  assert (U6 : forall x y, near (6 * eps) x y -> near (8 * eps) x y) by (intros x y H; apply (near_le (6 * eps)); [exact H|small]).
  assert (U8 : forall x y, near (8 * eps) x y -> near (10 * eps) x y) by (intros x y H; apply (near_le (8 * eps)); [exact H|small]).
  assert (U32 : forall x y, near (8 * eps) x y -> near (32 * eps) x y) by (intros x y H; apply (near_le (8 * eps)); [exact H|small]).
  destruct (near_fdiv _ _ _ _ NA (U4 _ _ N4) (PS al ltac:(lia))) as (q1 & E1 & Q1). rewrite E1. cbn [bind].
  destruct (near_fdiv _ _ _ _ (U8 _ _ (U4 _ _ NM)) (U6 _ _ NW1) (PS (io + t_compressing t) ltac:(lia))) as (q2 & E2 & Q2). rewrite E2. cbn [bind].
  destruct (near_fdiv _ _ _ _ (G _ _ NW1) (U2 _ _ I1) (P _ (proj1 WR))) as (q3 & E3 & Q3). rewrite E3. cbn [bind].
  destruct (near_fdiv _ _ _ _ (U8 _ _ (U4 _ _ NM)) (U4 _ _ N1) (PS io ltac:(lia))) as (q4 & E4 & Q4). rewrite E4. cbn [bind].
  destruct (near_fdiv _ _ _ _ (G4 _ _ N1) (U2 _ _ I1) (P _ (proj1 WR))) as (q5 & E5 & Q5). rewrite E5. cbn [bind].
  destruct (near_fdiv _ _ _ _ (U8 _ _ (U4 _ _ NM)) (U2 _ _ I5) (P _ (proj1 NW))) as (q6 & E6 & Q6). rewrite E6. cbn [bind].
  destruct (near_fdiv _ _ _ _ NB (U2 _ _ I4) (P _ (proj1 LG))) as (q7 & E7 & Q7). rewrite E7. cbn [bind].
  destruct (near_fdiv _ _ _ _ (G _ _ NW1) (U2 _ _ I4) (P _ (proj1 LG))) as (q8 & E8 & Q8). rewrite E8. cbn [bind].
  destruct (near_fdiv _ _ _ _ (G4 _ _ N2) (U2 _ _ I4) (P _ (proj1 LG))) as (q9 & E9 & Q9). rewrite E9. cbn [bind].
  destruct (near_fdiv _ _ _ _ NR NS (P (n_written c + n_pad c) ltac:(lia))) as (q10 & E10 & Q10). rewrite E10. cbn [bind].
  destruct (near_fdiv _ _ _ _ NR (U2 _ _ I1) (P _ (proj1 WR))) as (q11 & E11 & Q11). rewrite E11. cbn [bind].
  assert (IB : forall n, 0 <= n < 2 ^ 64 -> (0 <= inject_Z n <= inject_Z (2 ^ 64))%Q).
  { intros n H. split; [change 0%Q with (inject_Z 0)|]; rewrite <- Zle_Qle; lia. }
  assert (SB : forall n, 0 <= n < 2 ^ 64 -> (0 <= secs cps n <= inject_Z (2 ^ 64))%Q).
  { intros n H. destruct (IB n H) as [H1 H2]. unfold secs. split; [apply Qle_shift_div_l; [exact CP|]; lra|]. apply Qle_shift_div_r; [exact CP|].
    eapply Qle_trans; [exact H2|]. assert (K : (0 <= inject_Z (2 ^ 64))%Q) by discriminate. pose proof (Qmult_le_compat_r _ _ _ CP1 K). lra. }
  assert (IL : forall n, 0 < n -> (1 / inject_Z (2 ^ 64) <= inject_Z n)%Q).
  { intros n H. apply Qle_trans with (inject_Z 1); [discriminate|]. rewrite <- Zle_Qle. lia. }
  assert (SL : forall n, 0 < n -> (1 / inject_Z (2 ^ 64) <= secs cps n)%Q).
  { intros n H. unfold secs. apply Qle_shift_div_l; [exact CP|]. apply Qle_trans with (1 / inject_Z (2 ^ 64) * inject_Z (2 ^ 64))%Q.
    - rewrite !(Qmult_comm (1 / inject_Z (2 ^ 64))). apply Qmult_le_compat_r; [exact CP2|discriminate].
    - apply Qle_trans with (inject_Z 1); [discriminate|]. rewrite <- Zle_Qle. lia. }
  assert (XB : forall x, (0 <= x <= inject_Z (2 ^ 64))%Q -> (x <= inject_Z (2 ^ 64 * 1000000000))%Q).
  { intros x [_ H]. eapply Qle_trans; [exact H|discriminate]. }
  assert (XM : forall x, (0 <= x <= inject_Z (2 ^ 64))%Q -> (x <= most)%Q).
  { intros x [_ H]. eapply Qle_trans; [exact H|discriminate]. }
  assert (XG : forall x, (0 <= x <= inject_Z (2 ^ 64))%Q -> (0 <= x * 1000000000 /\ x * 1000000000 <= inject_Z (2 ^ 64 * 1000000000))%Q).
  { intros x [H0 H]. split; [apply Qmult_le_0_compat; [exact H0|discriminate]|]. rewrite inject_Z_mult. apply Qmult_le_compat_r; [exact H|discriminate]. }
  assert (MBB : (0 <= inject_Z (n_written c) / 1000000 <= inject_Z (2 ^ 64))%Q).
  { destruct (IB (n_written c) ltac:(lia)) as [H1 H2]. split; [apply Qle_shift_div_l; [reflexivity|]; lra|]. apply Qle_shift_div_r; [reflexivity|]. eapply Qle_trans; [exact H2|discriminate]. }
  pose proof (SB io ltac:(lia)) as B1. pose proof (SB (t_compressing t) ltac:(lia)) as B2. pose proof (SB (t_active t) ltac:(lia)) as B3. pose proof (SB al ltac:(lia)) as B4.
  pose proof (SB sy ltac:(lia)) as B5. pose proof (SB (io + t_compressing t) ltac:(lia)) as B6. pose proof (IB (n_written c) ltac:(lia)) as B7. pose proof (IB (n_read c) RD) as B8.
  assert (B9 : (0 <= 100 * secs cps (t_active t) /\ 100 * secs cps (t_active t) <= inject_Z (2 ^ 64 * 1000000000))%Q).
  { destruct B3 as [H0 H]. split; [apply Qmult_le_0_compat; [discriminate|exact H0]|]. rewrite Qmult_comm. apply Qle_trans with (inject_Z (2 ^ 64) * 100)%Q; [apply Qmult_le_compat_r; [exact H|discriminate]|discriminate]. }
  pose proof (Nat.lt_0_succ 0) as D1. pose proof (Nat.lt_0_succ 1) as D2. pose proof (Nat.lt_0_succ 2) as D3. pose proof (Nat.lt_0_succ 5) as D6.
  assert (K1 : (0 < 1 <= 6)%nat) by lia. assert (K2 : (0 < 2 <= 6)%nat) by lia. assert (K3 : (0 < 3 <= 6)%nat) by lia. assert (K6 : (0 < 6 <= 6)%nat) by lia.
  pose proof (fixed_fits 2 _ _ K2 (U32 _ _ (U4 _ _ NM)) (XM _ MBB)) as F1.
  pose proof (fixed_fits 3 _ _ K3 (U32 _ _ (U6 _ _ NW1)) (XM _ B6)) as F2.
  pose proof (fixed_fits 3 _ _ K3 (U32 _ _ (U4 _ _ N2)) (XM _ B2)) as F3.
  pose proof (fixed_fits 6 _ _ K6 (U32 _ _ (U4 _ _ N5)) (XM _ B5)) as F4.
  pose proof (fixed_fits 3 _ _ K3 (U32 _ _ (U4 _ _ N3)) (XM _ B3)) as F5.
  pose proof (fixed_fits 3 _ _ K3 (U32 _ _ (U4 _ _ N4)) (XM _ B4)) as F6.
  pose proof (fixed_fits 2 _ _ K2 Q1 (quotient_most _ _ (proj1 B9) (proj2 B9) (SL al ltac:(lia)))) as F7.
  pose proof (fixed_fits 2 _ _ K2 Q2 (quotient_most _ _ (proj1 MBB) (XB _ MBB) (SL (io + t_compressing t) ltac:(lia)))) as F8.
  pose proof (fixed_fits 2 _ _ K2 Q3 (quotient_most _ _ (proj1 (XG _ B6)) (proj2 (XG _ B6)) (IL _ (proj1 WR)))) as F9.
  pose proof (fixed_fits 2 _ _ K2 Q4 (quotient_most _ _ (proj1 MBB) (XB _ MBB) (SL io ltac:(lia)))) as F10.
  pose proof (fixed_fits 2 _ _ K2 Q5 (quotient_most _ _ (proj1 (XG _ B1)) (proj2 (XG _ B1)) (IL _ (proj1 WR)))) as F11.
  pose proof (fixed_fits 2 _ _ K2 Q6 (quotient_most _ _ (proj1 MBB) (XB _ MBB) (IL _ (proj1 NW)))) as F12.
  pose proof (fixed_fits 1 _ _ K1 Q7 (quotient_most _ _ (proj1 B7) (XB _ B7) (IL _ (proj1 LG)))) as F13.
  pose proof (fixed_fits 2 _ _ K2 Q8 (quotient_most _ _ (proj1 (XG _ B6)) (proj2 (XG _ B6)) (IL _ (proj1 LG)))) as F14.
  pose proof (fixed_fits 2 _ _ K2 Q9 (quotient_most _ _ (proj1 (XG _ B2)) (proj2 (XG _ B2)) (IL _ (proj1 LG)))) as F15.
  pose proof (fixed_fits 2 _ _ K2 Q10 (quotient_most _ _ (proj1 B8) (XB _ B8) (IL (n_written c + n_pad c) ltac:(lia)))) as F16.
  pose proof (fixed_fits 2 _ _ K2 Q11 (quotient_most _ _ (proj1 B8) (XB _ B8) (IL _ (proj1 WR)))) as F17.
  pose proof (dec_short (n_logs c) ltac:(lia)) as H1. pose proof (dec_short (n_writes c) ltac:(lia)) as H2. pose proof (dec_short (n_read c) ltac:(lia)) as H3.
  pose proof (dec_short (n_written c) ltac:(lia)) as H4. pose proof (dec_short (n_pad c) ltac:(lia)) as H5. cbn [map].
  rewrite (cut_short _ (line1 _ _ _ _ H1 F1 F2 F3)), (cut_short _ (line2 _ _ H2 F4)), (cut_short _ (line3 _ _ _ F5 F6 F7)), (cut_short _ (line4 _ _ F8 F9)),
    (cut_short _ (line5 _ _ F10 F11)), (cut_short _ (line6 _ _ F12 F13)), (cut_short _ (line7 _ _ F14 F15)), (cut_short _ (line8 _ _ _ _ _ F16 F17 H3 H4 H5)).
  exists (dec_str (n_logs c)), (fixedp 2 0 mb), (fixedp 3 0 work), (fixedp 3 0 (toSeconds (t_compressing t) cps)), (dec_str (n_writes c)), (fixedp 6 0 (toSeconds sy cps)),
    (fixedp 3 0 (toSeconds (t_active t) cps)), (fixedp 3 0 (toSeconds al cps)), (fixedp 2 0 q1), (fixedp 2 0 q2), (fixedp 2 0 q3), (fixedp 2 0 q4), (fixedp 2 0 q5), (fixedp 2 0 q6),
    (fixedp 1 0 q7), (fixedp 2 0 q8), (fixedp 2 0 q9), (fixedp 2 0 q10), (fixedp 2 0 q11), (dec_str (n_read c)), (dec_str (n_written c)), (dec_str (n_pad c)).
  split; [reflexivity|].
  split; [split; [apply dec_integer; lia|]; split; [apply dec_integer; lia|]; split; [exact (dec_integer _ (proj1 RD))|]; split; [apply dec_integer; lia|exact (dec_integer _ (proj1 PD))]|].
  split; [split; [exact (shown 2 _ _ D2 (U32 _ _ (U4 _ _ NM)))|]; split; [exact (shown 3 _ _ D3 (U32 _ _ (U6 _ _ NW1)))|]; split; [exact (shown 3 _ _ D3 (U32 _ _ (U4 _ _ N2)))|exact (shown 6 _ _ D6 (U32 _ _ (U4 _ _ N5)))]|].
  split; [split; [exact (shown 3 _ _ D3 (U32 _ _ (U4 _ _ N3)))|]; split; [exact (shown 3 _ _ D3 (U32 _ _ (U4 _ _ N4)))|exact (shown 2 _ _ D2 Q1)]|].
  split; [split; [exact (shown 2 _ _ D2 Q2)|]; split; [exact (shown 2 _ _ D2 Q3)|]; split; [exact (shown 2 _ _ D2 Q4)|exact (shown 2 _ _ D2 Q5)]|].
  split; [split; [exact (shown 2 _ _ D2 Q6)|]; split; [exact (shown 1 _ _ D1 Q7)|]; split; [exact (shown 2 _ _ D2 Q8)|exact (shown 2 _ _ D2 Q9)]|].
  split; [exact (shown 2 _ _ D2 Q10)|exact (shown 2 _ _ D2 Q11)].
Qed.
Print Assumptions C87_text.

(** ** Example: 1000 events of 16 bytes each. *)
Example C87_run : getStats 1000000000 (Counts 64000 16000 384 1000 2) (Timers 1500000 250000 3000000 0) 10 500010 4000000000 = Some (
    [13; 10] ++ chars "Wrote 1000 events (0.02 MB) in 0.002 seconds (0.000 seconds spent compressing)" ++ [13; 10] ++
    chars "There were 2 file flushes and the final sync time was 0.000500 sec" ++ [13; 10] ++
    chars "Compression Thread was active for 0.003 out of 4.000 seconds (0.07 %)" ++ [13; 10] ++
    chars "On average, that's" ++ [13; 10; 9] ++ chars "7.11 MB/s or 140.63 ns/byte w/ processing" ++ [13; 10] ++
    [9] ++ chars "8.00 MB/s or 125.00 ns/byte disk throughput (min)" ++ [13; 10] ++
    [9] ++ chars "0.01 MB per flush with 16.0 bytes/event" ++ [13; 10] ++
    [9] ++ chars "2250.00 ns/event in total" ++ [13; 10; 9] ++ chars "250.00 ns/event compressing" ++ [13; 10] ++
    chars "The compression ratio was 3.91-4.00x (64000 bytes in, 16000 bytes out, 384 pad bytes)" ++ [10], 2000000).
Proof. vm_compute. reflexivity. Qed.

(** Nothing logged: no numbers. *)
Example C87_nothing : getStats 1000000000 (Counts 0 0 0 0 0) (Timers 0 0 0 0) 10 500010 4000000000 = None.
Proof. vm_compute. reflexivity. Qed.
