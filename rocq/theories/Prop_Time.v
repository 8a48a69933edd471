(** C35: printed time stamps. *)
From Coq Require Import QArith Qabs Qround Lqa.
From Verif Require Import Base BaseProofs Chars Fmt Preproc PreprocProofs TimeFmt TimeProofs.
Open Scope Q_scope.

(** Specification: the instant of a message, in seconds since the epoch, and the
    value of a printed time of whole seconds and digits behind the point. *)
Definition elapsed (tb : timebase) (ts : Z) : Q := inject_Z (ts - tb_rdtsc tb) / tb_cps tb.
Definition instant (tb : timebase) (ts : Z) : Q := inject_Z (tb_unixTime tb) + elapsed tb ts.
Definition denotes (secs : Z) (digits : list Z) : Q := inject_Z secs + inject_Z (dec_val digits) / inject_Z (10 ^ 9).

(** Time stamps within 2^63 cycles and 2^50 seconds of the checkpoint. *)
Definition usual (tb : timebase) (ts : Z) : Prop :=
  0 < tb_cps tb /\ (Z.abs (ts - tb_rdtsc tb) < 2 ^ 63)%Z /\ Qabs (elapsed tb ts) <= inject_Z (2 ^ 50).

(** Half a nanosecond for the decimal digits, and the error of the double. *)
Definition tolerance (tb : timebase) (ts : Z) : Q :=
  (51 # 100) / inject_Z (10 ^ 9) + Qabs (elapsed tb ts) / inject_Z (2 ^ 51).

(** Full statement. *)
Definition C35_full : Prop := forall tb ts, usual tb ts ->
  length (nanos_text (snd (abs_time tb ts))) = 9%nat /\
  Qabs (denotes (fst (abs_time tb ts)) (nanos_text (snd (abs_time tb ts))) - instant tb ts) <= tolerance tb ts.

(** One cycle before a full second at 2.4 GHz: ten digits are printed. *)
Definition tb24 : timebase := TimeBase 1000 1700000000 (2400000000 # 1).
Theorem C35_refuted : ~ C35_full.
Proof.
  intro H. destruct (H tb24 (1000 + 2399999999)%Z) as [L _].
  - unfold usual, tb24, elapsed. cbn. split; [reflexivity|]. split; [lia|]. vm_compute. discriminate.
  - vm_compute in L. discriminate L.
Qed.
Example C35_ten_digits : fst (abs_time tb24 (1000 + 2399999999)) = 1700000000%Z /\
  nanos_text (snd (abs_time tb24 (1000 + 2399999999))) = chars "1000000000".
Proof. split; vm_compute; reflexivity. Qed.

(** ** Proof *)
Lemma frac_exact : forall x, Qabs (rnd x) <= inject_Z (2 ^ 51) ->
  rnd (rnd x - rnd (inject_Z (qtrunc (rnd x)))) == rnd x - inject_Z (qtrunc (rnd x)).
Proof.
  intros x B. set (s := rnd x) in *. set (w := qtrunc s).
  destruct (qtrunc_spec s) as [T1 T2]. fold w in T1, T2.
  apply Qabs_Qle_condition in B. destruct B as [B1 B2].
  change (inject_Z (2 ^ 51)) with (2251799813685248 # 1) in B1, B2.
  assert (W : rnd (inject_Z w) == inject_Z w).
  { apply (rnd_exact _ w 0); [change (pow2 0) with 1; ring|].
    destruct (Qlt_le_dec s 0) as [N|P].
    - destruct T2 as (A1 & A2 & A3); [lra|]. assert (X : inject_Z (- w) <= inject_Z (2 ^ 53)).
      { rewrite inject_Z_opp. change (inject_Z (2 ^ 53)) with (9007199254740992 # 1). lra. }
      rewrite <- Zle_Qle in X. lia.
    - destruct T1 as (A1 & A2 & A3); [lra|]. assert (X : inject_Z w <= inject_Z (2 ^ 53)).
      { change (inject_Z (2 ^ 53)) with (9007199254740992 # 1). lra. }
      rewrite <- Zle_Qle in X. lia. }
  rewrite <- W at 2.
  destruct (rnd_form x) as (n & k & F & Hn). fold s in F.
  assert (KP := pow2_pos k).
  assert (G : exists n', s - inject_Z w == inject_Z n' * pow2 k).
  { destruct (Z_le_gt_dec 0 k) as [K|K].
    - exists 0%Z. unfold pow2 in F. replace (0 <=? k)%Z with true in F by lia. rewrite <- inject_Z_mult in F.
      assert (E : w = (n * 2 ^ k)%Z).
      { destruct (Qlt_le_dec s 0) as [N|P].
        - destruct T2 as (A1 & A2 & A3); [lra|]. rewrite F in A1, A2. rewrite <- Zle_Qle in A1.
          assert (A2' : inject_Z (w - 1) < inject_Z (n * 2 ^ k)) by (unfold Zminus; rewrite inject_Z_plus; exact A2).
          rewrite <- Zlt_Qlt in A2'. lia.
        - destruct T1 as (A1 & A2 & A3); [lra|]. rewrite F in A1, A2. rewrite <- Zle_Qle in A1.
          assert (A2' : inject_Z (n * 2 ^ k) < inject_Z (w + 1)) by (rewrite inject_Z_plus; exact A2).
          rewrite <- Zlt_Qlt in A2'. lia. }
      rewrite F, E. change (inject_Z 0) with 0. ring.
    - exists (n - w * 2 ^ (- k))%Z. pose proof (pow2_add k (- k) ltac:(lia)) as A.
      replace (k + - k)%Z with 0%Z in A by lia. change (pow2 0) with 1 in A.
      unfold Zminus. rewrite inject_Z_plus, inject_Z_opp, inject_Z_mult.
      setoid_replace ((inject_Z n + - (inject_Z w * inject_Z (2 ^ - k))) * pow2 k)
        with (inject_Z n * pow2 k - inject_Z w * (pow2 k * inject_Z (2 ^ - k))) by ring.
      rewrite <- A, F. ring. }
  destruct G as (n' & G).
  apply (rnd_exact _ n' k); [rewrite W; exact G|].
  assert (X : (Z.abs n' <= Z.abs n)%Z); [|lia].
  destruct (Qlt_le_dec s 0) as [N|P].
  - destruct T2 as (A1 & A2 & A3); [lra|]. assert (inject_Z w <= 0) by (change 0 with (inject_Z 0); now apply iz_le).
    assert (Y1 : inject_Z n' * pow2 k <= 0 * pow2 k) by (rewrite <- G; lra).
    assert (Y2 : inject_Z n * pow2 k <= inject_Z n' * pow2 k) by (rewrite <- G, <- F; lra).
    apply Qmult_le_r in Y1, Y2; auto. change 0 with (inject_Z 0) in Y1. rewrite <- Zle_Qle in Y1, Y2. lia.
  - destruct T1 as (A1 & A2 & A3); [lra|]. assert (0 <= inject_Z w) by (change 0 with (inject_Z 0); now apply iz_le).
    assert (Y1 : 0 * pow2 k <= inject_Z n' * pow2 k) by (rewrite <- G; lra).
    assert (Y2 : inject_Z n' * pow2 k <= inject_Z n * pow2 k) by (rewrite <- G, <- F; lra).
    apply Qmult_le_r in Y1, Y2; auto. change 0 with (inject_Z 0) in Y1. rewrite <- Zle_Qle in Y1, Y2. lia.
Qed.

Lemma to_s_diff : forall d, (Z.abs d < 2 ^ 63)%Z -> to_s 64 (to_u 64 d) = d.
Proof.
  intros d H. rewrite (to_s_cong 64 (to_u 64 d) d) by (unfold to_u; apply Z.mod_mod; discriminate).
  apply to_s_id; [lia|]. change (2 ^ (64 - 1))%Z with (2 ^ 63)%Z. lia.
Qed.

(** The double against the exact quotient. *)
Lemma seconds_err : forall tb ts, usual tb ts ->
  Qabs (toSeconds (to_u 64 (ts - tb_rdtsc tb)) (tb_cps tb) - elapsed tb ts) <= Qabs (elapsed tb ts) / inject_Z (2 ^ 51).
Proof.
  intros tb ts (C & D & E). unfold toSeconds. rewrite to_s_diff by auto. unfold elapsed in *.
  set (d := inject_Z (ts - tb_rdtsc tb)) in *. set (c := tb_cps tb) in *. clearbody d c.
  pose proof (rnd_err d) as R1. set (d1 := rnd d) in *. pose proof (rnd_err (d1 / c)) as R2.
  set (s := rnd (d1 / c)) in *. clearbody d1 s.
  assert (CN : ~ c == 0) by (intro X; rewrite X in C; discriminate C).
  (* divide the first error by c *)
  assert (R1' : Qabs (d1 / c - d / c) <= Qabs (d / c) * eps).
  { setoid_replace (d1 / c - d / c) with ((d1 - d) * / c) by (field; exact CN).
    unfold Qdiv at 1. rewrite !Qabs_Qmult. assert (IC : 0 <= Qabs (/ c)) by apply Qabs_nonneg.
    setoid_replace (Qabs d * Qabs (/ c) * eps) with (Qabs d * eps * Qabs (/ c)) by ring.
    apply Qmult_le_compat_r; auto. }
  set (t := d / c) in *. set (q := d1 / c) in *. clearbody t q.
  assert (Q1 : Qabs q <= Qabs t + Qabs t * eps).
  { setoid_replace q with ((q - t) + t) by ring. eapply Qle_trans; [apply Qabs_triangle|]. lra. }
  setoid_replace (s - t) with ((s - q) + (q - t)) by ring. eapply Qle_trans; [apply Qabs_triangle|].
  pose proof (Qabs_nonneg t). set (at_ := Qabs t) in *. clearbody at_.
  unfold Qdiv. change (/ inject_Z (2 ^ 51)) with (1 # 2251799813685248).
  unfold eps in *. change (2 ^ 53)%positive with 9007199254740992%positive in *. lra.
Qed.

Lemma seconds_bound : forall tb ts, usual tb ts ->
  Qabs (toSeconds (to_u 64 (ts - tb_rdtsc tb)) (tb_cps tb)) <= inject_Z (2 ^ 51).
Proof.
  intros tb ts U. pose proof (seconds_err tb ts U) as E. destruct U as (_ & _ & B).
  set (s := toSeconds _ _) in *. set (t := elapsed tb ts) in *. clearbody s t.
  setoid_replace s with ((s - t) + t) by ring. eapply Qle_trans; [apply Qabs_triangle|].
  unfold Qdiv in E. change (/ inject_Z (2 ^ 51)) with (1 # 2251799813685248) in E.
  change (inject_Z (2 ^ 50)) with (1125899906842624 # 1) in B. change (inject_Z (2 ^ 51)) with (2251799813685248 # 1). lra.
Qed.

Lemma billion : Qabs (1000000000) == 1000000000. Proof. reflexivity. Qed.

Lemma abs_time_err : forall tb ts, usual tb ts ->
  (0 <= rhe (snd (abs_time tb ts)) <= 10 ^ 9)%Z /\
  Qabs (inject_Z (fst (abs_time tb ts)) + inject_Z (rhe (snd (abs_time tb ts))) / inject_Z (10 ^ 9) - instant tb ts) <= tolerance tb ts.
Proof.
  intros tb ts U. pose proof (seconds_err tb ts U) as SE. pose proof (seconds_bound tb ts U) as SB.
  unfold abs_time, instant, tolerance. change (/ inject_Z (10 ^ 9)) with (1 # 1000000000).
  set (s := toSeconds (to_u 64 (ts - tb_rdtsc tb)) (tb_cps tb)) in *.
  assert (FE : rnd (s - rnd (inject_Z (qtrunc s))) == s - inject_Z (qtrunc s)) by (apply frac_exact; exact SB).
  set (f := rnd (s - rnd (inject_Z (qtrunc s)))) in *.
  pose proof (rnd_err (1000000000 * f)) as NE.
  assert (FB : Qabs f < 1 /\ -(1) < f /\ f < 1).
  { destruct (qtrunc_spec s) as [T1 T2]. assert (-(1) < f /\ f < 1).
    { destruct (Qlt_le_dec s 0) as [N|P]; [destruct T2 as (A1 & A2 & _)|destruct T1 as (A1 & A2 & _)]; lra. }
    split; auto. apply Qabs_Qlt_condition. exact H. }
  destruct FB as (FB & FB1 & FB2).
  assert (SG : Qabs (1000000000 * f) == 1000000000 * Qabs f) by (rewrite Qabs_Qmult; reflexivity).
  assert (NU : 1000000000 * f <= inject_Z 1000000000) by (change (inject_Z 1000000000) with (1000000000 # 1); lra).
  assert (NB : Qabs (1000000000 * f) < inject_Z (2 ^ 53)).
  { rewrite SG. change (inject_Z (2 ^ 53)) with (9007199254740992 # 1). lra. }
  pose proof (rnd_le_int _ _ NU NB) as NL. change (inject_Z 1000000000) with (1000000000 # 1) in NL.
  set (nanos := rnd (1000000000 * f)) in *.
  set (w := qtrunc s) in *. set (e := elapsed tb ts) in *.
  assert (NE' : Qabs (nanos - 1000000000 * f) <= 1 # 4194304).
  { rewrite SG in NE. unfold eps in NE. change (2 ^ 53)%positive with 9007199254740992%positive in NE. lra. }
  apply Qabs_Qle_condition in NE'. apply Qabs_Qle_condition in SE.
  destruct (Qlt_le_dec nanos 0) as [N|P]; cbn [fst snd].
  - assert (NN : - (1000000000) <= nanos).
    { destruct (Qlt_le_dec nanos (-(1000000000))) as [X|X]; auto. exfalso.
      (* rounding upwards of -nanos *)
      assert (Y : rnd (1000000000 * f) < - (1000000000)) by exact X.
      destruct (rnd_cases (1000000000 * f)) as [[Z1 Z2]|(e0 & u & Eu & Hu & Er & L & Up & NZ)].
      { rewrite Z2 in Y. discriminate Y. }
      rewrite Er in Y.
      assert (R : (- (1000000000) * 2 ^ (52 - e0) <= rhe (1000000000 * f / u))%Z).
      { apply rhe_ge. rewrite inject_Z_mult.
        assert (He : (e0 <= 52)%Z).
        { destruct (Z_le_gt_dec e0 52) as [|G]; auto. exfalso.
          assert (pow2 1 <= u) by (rewrite Eu; apply pow2_mono; lia). change (pow2 1) with 2 in H.
          change (inject_Z (2 ^ 52)) with (4503599627370496 # 1) in L. change (inject_Z (2 ^ 53)) with (9007199254740992 # 1) in NB. lra. }
        pose proof (pow2_add (e0 - 52) (52 - e0) ltac:(lia)) as A. rewrite <- Eu in A. replace (e0 - 52 + (52 - e0))%Z with 0%Z in A by lia.
        change (pow2 0) with 1 in A.
        apply (Qmult_le_r _ _ u Hu). rewrite div_mul by auto.
        setoid_replace (inject_Z (- (1000000000)) * inject_Z (2 ^ (52 - e0)) * u) with (inject_Z (- (1000000000)) * (u * inject_Z (2 ^ (52 - e0)))) by ring.
        rewrite <- A. change (inject_Z (- (1000000000))) with (- (1000000000)). lra. }
      apply iz_le in R. rewrite inject_Z_mult in R.
      assert (He : (e0 <= 52)%Z).
      { destruct (Z_le_gt_dec e0 52) as [|G]; auto. exfalso.
        assert (pow2 1 <= u) by (rewrite Eu; apply pow2_mono; lia). change (pow2 1) with 2 in H.
        change (inject_Z (2 ^ 52)) with (4503599627370496 # 1) in L. change (inject_Z (2 ^ 53)) with (9007199254740992 # 1) in NB. lra. }
      pose proof (pow2_add (e0 - 52) (52 - e0) ltac:(lia)) as A. rewrite <- Eu in A. replace (e0 - 52 + (52 - e0))%Z with 0%Z in A by lia.
      change (pow2 0) with 1 in A.
      assert (R' : inject_Z (- (1000000000)) * inject_Z (2 ^ (52 - e0)) * u <= inject_Z (rhe (1000000000 * f / u)) * u) by (apply Qmult_le_compat_r; [exact R|lra]).
      setoid_replace (inject_Z (- (1000000000)) * inject_Z (2 ^ (52 - e0)) * u) with (inject_Z (- (1000000000)) * (u * inject_Z (2 ^ (52 - e0)))) in R' by ring.
      rewrite <- A in R'. change (inject_Z (- (1000000000))) with (- (1000000000)) in R'. lra. }
    assert (SUM1 : 0 <= nanos + 1000000000) by lra.
    assert (SUM2 : nanos + 1000000000 <= inject_Z 1000000000) by (change (inject_Z 1000000000) with (1000000000 # 1); lra).
    assert (SUM3 : Qabs (nanos + 1000000000) < inject_Z (2 ^ 53)).
    { rewrite Qabs_pos by auto. change (inject_Z (2 ^ 53)) with (9007199254740992 # 1). lra. }
    pose proof (rnd_le_int _ _ SUM2 SUM3) as RL. pose proof (rnd_pos _ SUM1) as RP. pose proof (rnd_err (nanos + 1000000000)) as RE.
    rewrite (Qabs_pos (nanos + 1000000000)) in RE by auto. apply Qabs_Qle_condition in RE.
    set (n2 := rnd (nanos + 1000000000)) in *. clearbody n2.
    split.
    { split; [apply rhe_ge; exact RP|apply rhe_le; exact RL]. }
    pose proof (rhe_near n2) as RN. apply Qabs_Qle_condition in RN. set (m := inject_Z (rhe n2)) in *.
    rewrite inject_Z_plus. change (w - 1)%Z with (w + (-1))%Z. rewrite inject_Z_plus. change (inject_Z (-1)) with (-(1)).
    unfold Qdiv in *. change (/ inject_Z (10 ^ 9)) with (1 # 1000000000).
    set (tol := Qabs e * / inject_Z (2 ^ 51)) in *. set (ut := inject_Z (tb_unixTime tb)). set (iw := inject_Z w) in *.
    unfold eps in RE. change (2 ^ 53)%positive with 9007199254740992%positive in RE. change (inject_Z 1000000000) with (1000000000 # 1) in RL.
    clearbody m tol ut iw nanos f s e. apply Qabs_Qle_condition. split; lra.
  - split.
    { split; [apply rhe_ge; exact P|apply rhe_le; exact NL]. }
    pose proof (rhe_near nanos) as RN. apply Qabs_Qle_condition in RN. set (m := inject_Z (rhe nanos)) in *.
    rewrite inject_Z_plus.
    unfold Qdiv in *. change (/ inject_Z (10 ^ 9)) with (1 # 1000000000).
    set (tol := Qabs e * / inject_Z (2 ^ 51)) in *. set (ut := inject_Z (tb_unixTime tb)). set (iw := inject_Z w) in *.
    clearbody m tol ut iw nanos f s e. apply Qabs_Qle_condition. split; lra.
Qed.

(** Digits. *)
Lemma dec_digits_len : forall f n k acc, (0 <= n < 10 ^ Z.of_nat (S k))%Z ->
  (length (dec_digits f n acc) <= S k + length acc)%nat.
Proof.
  induction f as [|f IH]; intros n k acc H; cbn [dec_digits]; [lia|].
  destruct (n <? 10)%Z eqn:E; [cbn [length]; lia|].
  destruct k as [|k]; [exfalso; change (10 ^ Z.of_nat 1)%Z with 10%Z in H; lia|].
  specialize (IH (n / 10)%Z k (48 + n mod 10 :: acc)%Z). cbn [length] in IH.
  assert (n / 10 < 10 ^ Z.of_nat (S k))%Z.
  { apply Z.div_lt_upper_bound; [lia|]. rewrite (Nat2Z.inj_succ (S k)), Z.pow_succ_r in H by lia. lia. }
  assert (0 <= n / 10)%Z by (apply Z.div_pos; lia). lia.
Qed.

Lemma dec_val_zeros : forall j t, dec_val (repeat 48%Z j ++ t) = dec_val t.
Proof. unfold dec_val. induction j as [|j IH]; intro t; [reflexivity|]. cbn [repeat app fold_left]. apply IH. Qed.

Lemma text_spec : forall x, (0 <= rhe x <= 10 ^ 9)%Z ->
  dec_val (nanos_text x) = rhe x /\ Forall is_digit (nanos_text x) /\
  length (nanos_text x) = (if (rhe x =? 10 ^ 9)%Z then 10 else 9)%nat.
Proof.
  intros x H. unfold nanos_text. destruct (dec_str_spec (rhe x) ltac:(lia)) as (_ & D & V).
  rewrite dec_val_zeros. split; [exact V|]. split.
  - apply Forall_app. split; [|exact D]. apply Forall_forall. intros c Hc. apply repeat_spec in Hc. subst c. unfold is_digit. lia.
  - destruct (Z.eqb_spec (rhe x) (10 ^ 9)) as [->|N]; [vm_compute; reflexivity|].
    assert (L : (length (dec_str (rhe x)) <= 9)%nat).
    { unfold dec_str. pose proof (dec_digits_len (S (Z.to_nat (Z.log2 (rhe x)))) (rhe x) 8 []) as L.
      change (10 ^ Z.of_nat 9)%Z with (10 ^ 9)%Z in L. cbn [length] in L. lia. }
    rewrite app_length, repeat_length. lia.
Qed.

(** The full statement, but that ten digits are printed when the nanoseconds
    round to a whole second. *)
Theorem C35_partial : forall tb ts, usual tb ts ->
  let digits := nanos_text (snd (abs_time tb ts)) in
  Forall (fun c => 48 <= c <= 57)%Z digits /\
  Qabs (denotes (fst (abs_time tb ts)) digits - instant tb ts) <= tolerance tb ts /\
  (length digits = 9%nat \/ (length digits = 10%nat /\ Qabs (inject_Z (fst (abs_time tb ts) + 1) - instant tb ts) <= tolerance tb ts)).
Proof.
  intros tb ts U digits. destruct (abs_time_err tb ts U) as (B & E).
  destruct (text_spec _ B) as (V & D & L). fold digits in V, D, L.
  split; [exact D|]. split; [unfold denotes; rewrite V; exact E|].
  destruct (Z.eqb_spec (rhe (snd (abs_time tb ts))) (10 ^ 9)) as [X|X]; [right|now left].
  split; [exact L|]. rewrite X in E. rewrite inject_Z_plus.
  setoid_replace (inject_Z 1) with (inject_Z (10 ^ 9) / inject_Z (10 ^ 9)) by reflexivity. exact E.
Qed.
Print Assumptions C35_refuted.
Print Assumptions C35_partial.

(** 1.25 s before the checkpoint, at 2.4 GHz. *)
Example C35_instance : usual tb24 (1000 - 3000000000) /\
  fst (abs_time tb24 (1000 - 3000000000)) = 1699999998%Z /\
  nanos_text (snd (abs_time tb24 (1000 - 3000000000))) = chars "750000000" /\
  denotes 1699999998 (chars "750000000") == instant tb24 (1000 - 3000000000).
Proof.
  split; [|split; [|split]]; try (vm_compute; reflexivity).
  unfold usual. split; [reflexivity|]. split; [cbn; lia|]. vm_compute. discriminate.
Qed.

(** The doubles of the model are rounded to the nearest, ties to even. *)
Theorem C35_rounding : forall x, (Qabs (x - inject_Z (rhe x)) <= 1 # 2)%Q /\
  ((Qabs (x - inject_Z (rhe x)) == 1 # 2)%Q -> Z.even (rhe x) = true).
Proof.
  intro x. pose proof (Qfloor_le x) as A. pose proof (Qlt_floor x) as B. unfold rhe. cbv zeta. set (f := Qfloor x) in *. clearbody f.
  rewrite inject_Z_plus in B. change (inject_Z 1) with 1%Q in B.
  destruct (Qcompare (x - inject_Z f) (1 # 2)) eqn:E.
  - apply Qeq_alt in E. destruct (Z.even f) eqn:V.
    + split; [|auto]. rewrite E. discriminate.
    + assert (K : (x - inject_Z (f + 1) == - (1 # 2))%Q) by (rewrite inject_Z_plus; change (inject_Z 1) with 1%Q; lra).
      rewrite K. split; [discriminate|]. intros _. rewrite Z.even_add, V. reflexivity.
  - apply Qlt_alt in E. rewrite Qabs_pos by lra. split; [lra|]. intro K. exfalso. lra.
  - apply Qgt_alt in E. rewrite inject_Z_plus. change (inject_Z 1) with 1%Q. rewrite Qabs_neg by lra. split; [lra|]. intro K. exfalso. lra.
Qed.
Print Assumptions C35_rounding.

Example C35_ties : (rnd (9007199254740993 # 1) == 9007199254740992 # 1)%Q /\ (rnd (9007199254740995 # 1) == 9007199254740996 # 1)%Q.
Proof. split; reflexivity. Qed.
