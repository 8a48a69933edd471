(** C85: the text of rcdfTime's table. *)
From Coq Require Import QArith Qabs Qround Lqa Permutation Sorted.
From Verif Require Import Base BaseProofs RingProofs DecodeProofs Chars Fmt Preproc PreprocProofs TimeFmt TimeProofs Prop_TimeOrder LineFmt LineProofs Cycles Prop_TraceText LogMsg Stats RcdfText.
Open Scope Z_scope.
Ltac Zify.zify_post_hook ::= Z.div_mod_to_equations.

(** ** Specification *)

(** [txt] is a number with [p] decimals, right-aligned in [w] columns (longer if need be). *)
Definition number (p w : nat) (txt : list Z) (v : Q) : Prop :=
  exists sp ds fs, txt = repeat 32 sp ++ ds ++ [46] ++ fs /\ ds <> [] /\ length fs = p /\ Forall is_digit (ds ++ fs) /\
    (w <= length txt)%nat /\ (sp = 0 \/ length txt = w)%nat /\
    (v == inject_Z (dec_val (ds ++ fs)) / inject_Z (10 ^ Z.of_nat p))%Q.

(** Nanoseconds with two decimals, up to half a unit and the precision of doubles. *)
Definition time_shown (cps : Q) (cycles : Z) (v : Q) : Prop := (Qabs (v - nanos cps cycles) <= (1 # 200) + nanos cps cycles * (1 # 2 ^ 50))%Q.

(** A line: [k] of [n] operations. *)
Definition shows_ops (cps : Q) (n : Z) (dk : Z * Z) (line : list Z) : Prop :=
  exists T F t f, line = T ++ chars "    " ++ F ++ [13; 10] /\ number 2 8 T t /\ number 10 11 F f /\
    time_shown cps (fst dk) t /\ (Qabs (f - inject_Z (snd dk) / inject_Z n) <= (1 # 20000000000) + (1 # 2 ^ 50))%Q.

(** The table shows the numbers of C45, and the mean. *)
Definition C85_stmt : Prop := forall cps sorted bound lines mean, (0 < cps)%Q -> Forall (fun d => 0 <= d < 2 ^ 63) sorted -> zlen sorted <= 2 ^ 53 ->
  rcdf_bound cps = Some bound -> runRCDF bound sorted = Some (lines, mean) ->
  exists ls M m, rcdf_text cps sorted = Some (chars "# Aggregating..." ++ [13; 10] ++ chars "# Done; printing rcdf" ++ [13; 10] ++
      chars "#   Latency     Percentage of Operations" ++ [13; 10] ++ concat ls ++ [13; 10] ++ chars "# The mean was " ++ M ++ chars " ns" ++ [13; 10]) /\
    Forall2 (shows_ops cps (zlen sorted)) lines ls /\ number 2 0 M m /\ time_shown cps mean m.

(** ** Numbers *)
Lemma dec_val_app : forall a b, dec_val (a ++ b) = dec_val a * 10 ^ Z.of_nat (length b) + dec_val b.
Proof.
  intros a b. induction b as [|c b IH] using rev_ind; [rewrite app_nil_r; cbn; lia|].
  rewrite app_assoc. unfold dec_val in *. rewrite !fold_left_app in *. cbn [fold_left]. rewrite app_length. cbn [length].
  replace (Z.of_nat (length b + 1)) with (Z.of_nat (length b) + 1) by lia. rewrite Z.pow_add_r by lia. change (10 ^ 1) with 10. rewrite IH. ring.
Qed.

Lemma fixedp_number : forall p w x, (0 < p)%nat -> (0 <= x)%Q -> exists v, number p w (fixedp p w x) v /\
  (Qabs (v - x) <= (1 # 2) / inject_Z (10 ^ Z.of_nat p))%Q.
Proof.
  intros p w x P X. unfold fixedp. set (ten := 10 ^ Z.of_nat p). assert (T1 : 0 < ten) by (apply Z.pow_pos_nonneg; lia).
  assert (QT : (0 < inject_Z ten)%Q) by (change 0%Q with (inject_Z 0); rewrite <- Zlt_Qlt; exact T1).
  set (t := rhe (inject_Z ten * Qabs x)). destruct (Qlt_le_dec x 0) as [N|_]; [lra|].
  assert (T0 : 0 <= t). { apply rhe_ge. change (inject_Z 0) with 0%Q. apply Qmult_le_0_compat; [lra|apply Qabs_nonneg]. }
  pose proof (rhe_near (inject_Z ten * Qabs x)) as NE. fold t in NE. rewrite (Qabs_pos x X) in NE.
  pose proof (Z.div_pos t ten T0 T1) as D0. pose proof (Z.mod_pos_bound t ten T1) as M0.
  destruct (dec_str_spec (t / ten) D0) as (D1 & D2 & D3). destruct (padded_spec p (t mod ten) ltac:(lia)) as (E1 & E2 & _).
  pose proof (padded_length p (t mod ten) M0 P) as E3.
  set (ds := dec_str (t / ten)) in *. set (fs := padded p (t mod ten)) in *.
  assert (AL : forall body : list Z, (w <= length (repeat 32%Z (w - length body) ++ body))%nat /\
    ((w - length body)%nat = 0%nat \/ length (repeat 32%Z (w - length body) ++ body) = w)).
  { intro body. rewrite app_length, repeat_length. lia. }
  exists (inject_Z t / inject_Z ten)%Q. split.
  - exists (w - length (ds ++ [46%Z] ++ fs))%nat, ds, fs. split; [reflexivity|]. split; [exact D1|]. split; [exact E3|].
    split; [apply Forall_app; split; assumption|]. split; [apply AL|]. split; [apply AL|].
    fold ten. rewrite dec_val_app, D3, E2, E3. fold ten. replace (t / ten * ten + t mod ten) with t; [reflexivity|]. rewrite Z.mul_comm. apply Z.div_mod. lia.
  - setoid_replace (inject_Z t / inject_Z ten - x)%Q with ((inject_Z t - inject_Z ten * x) * / inject_Z ten)%Q by (field; lra).
    assert (IV : (0 <= / inject_Z ten)%Q) by (apply Qlt_le_weak, Qinv_lt_0_compat, QT).
    rewrite (abs_mult_pos _ _ IV). unfold Qdiv. now apply Qmult_le_compat_r.
Qed.

Open Scope Q_scope.

Lemma latency_close : forall cps d, 0 < cps -> (0 <= d < 2 ^ 63)%Z -> 0 <= latency cps d /\ Qabs (latency cps d - nanos cps d) <= nanos cps d * (4 * eps).
Proof.
  intros cps d C L. unfold latency, toSeconds, nanos. replace (to_s 64 d) with d by (rewrite <- (signed_diff d) at 1 by lia; f_equal; unfold to_u; lia).
  set (i := inject_Z d). assert (I0 : 0 <= i) by (change 0 with (inject_Z 0); apply iz_le; lia).
  assert (IC : 0 <= / cps) by (apply Qlt_le_weak, Qinv_lt_0_compat, C). unfold Qdiv. split.
  - apply rnd_pos. apply Qmult_le_0_compat; [discriminate|]. apply rnd_pos. apply Qmult_le_0_compat; [|exact IC]. now apply rnd_pos.
  - pose proof (rnd_err i) as E1. apply (rel_scale _ _ _ (/ cps) IC) in E1.
    apply rnd_again in E1; [|unfold eps; discriminate|unfold eps; discriminate].
    apply (rel_scale _ _ _ 1000000000 ltac:(discriminate)) in E1.
    set (s := rnd (rnd i * / cps)) in *. assert (SC : s * 1000000000 == 1000000000 * s) by ring. rewrite SC in E1.
    apply rnd_again in E1; [|vm_compute; discriminate|vm_compute; discriminate].
    assert (XP : 0 <= i * / cps * 1000000000) by (apply Qmult_le_0_compat; [apply Qmult_le_0_compat; assumption|discriminate]).
    rewrite (Qabs_pos _ XP) in E1. setoid_replace (i * 1000000000 * / cps) with (i * / cps * 1000000000) by ring.
    eapply Qle_trans; [exact E1|]. rewrite !(Qmult_comm (i * / cps * 1000000000)). apply Qmult_le_compat_r; [vm_compute; discriminate|exact XP].
Qed.

Lemma latency_shown : forall cps d w, 0 < cps -> (0 <= d < 2 ^ 63)%Z -> exists t, number 2 w (fixedp 2 w (latency cps d)) t /\ time_shown cps d t.
Proof.
  intros cps d w C L. destruct (latency_close cps d C L) as [P K]. destruct (fixedp_number 2 w _ (Nat.lt_0_succ 1) P) as (t & T1 & T2).
  exists t. split; [exact T1|]. unfold time_shown. assert (E : (1 # 2 ^ 50) == 8 * eps) by reflexivity. rewrite E.
  assert (N0 : 0 <= nanos cps d). { unfold nanos, Qdiv. apply Qmult_le_0_compat; [apply Qmult_le_0_compat; [|discriminate]|apply Qlt_le_weak, Qinv_lt_0_compat, C].
    change 0 with (inject_Z 0). apply iz_le. lia. }
  change ((1 # 2) / inject_Z (10 ^ Z.of_nat 2)) with (1 # 200) in T2.
  set (x := nanos cps d) in *. set (l := latency cps d) in *. clearbody x l. setoid_replace (t - x) with ((t - l) + (l - x)) by ring.
  eapply Qle_trans; [apply Qabs_triangle|]. assert (EP : 0 <= eps) by discriminate. pose proof (Qmult_le_0_compat _ _ N0 EP) as XE. lra.
Qed.

Lemma small_exact : forall n, (0 <= n <= 2 ^ 53)%Z -> rnd (inject_Z n) == inject_Z n.
Proof. intros n H. apply (rnd_exact _ n 0); [|lia]. change (pow2 0) with 1. ring. Qed.

(** 1.0 - double(i)/size *)
Lemma fraction_close : forall i n, (0 <= i < n)%Z -> (n <= 2 ^ 53)%Z ->
  let f := rnd (1 - rnd (rnd (inject_Z i) / rnd (inject_Z n))) in 0 <= f /\ Qabs (f - inject_Z (n - i) / inject_Z n) <= 4 * eps.
Proof.
  intros i n H L f. pose proof (small_exact i ltac:(lia)) as EI. pose proof (small_exact n ltac:(lia)) as EN.
  assert (N0 : 0 < inject_Z n) by (change 0 with (inject_Z 0); rewrite <- Zlt_Qlt; lia).
  assert (I0 : 0 <= inject_Z i) by (change 0 with (inject_Z 0); rewrite <- Zle_Qle; lia).
  assert (IN : inject_Z i <= inject_Z n) by (rewrite <- Zle_Qle; lia).
  set (y := rnd (inject_Z i) / rnd (inject_Z n)) in *. assert (EY : y == inject_Z i / inject_Z n) by (unfold y; rewrite EI, EN; reflexivity).
  assert (Y0 : 0 <= y) by (rewrite EY; apply Qle_shift_div_l; lra).
  assert (Y1 : y <= 1) by (rewrite EY; apply Qle_shift_div_r; lra).
  assert (Q1 : rnd y <= 1). { apply (rnd_le_int y 1 Y1). rewrite Qabs_pos by exact Y0. eapply Qle_lt_trans; [exact Y1|]. reflexivity. }
  pose proof (rnd_pos y Y0) as Q0. pose proof (rnd_err y) as R1. rewrite (Qabs_pos y Y0) in R1. apply Qabs_Qle_condition in R1.
  assert (D0 : 0 <= 1 - rnd y) by lra. pose proof (rnd_err (1 - rnd y)) as R2. rewrite (Qabs_pos _ D0) in R2. apply Qabs_Qle_condition in R2.
  split; [unfold f; now apply rnd_pos|]. fold f in R2.
  assert (EK : inject_Z (n - i) / inject_Z n == 1 - y). { rewrite EY. unfold Z.sub. rewrite inject_Z_plus, inject_Z_opp. field. lra. }
  rewrite EK. assert (EP : 0 <= eps) by discriminate. assert (B1 : y * eps <= 1 * eps) by now apply Qmult_le_compat_r.
  assert (B2 : (1 - rnd y) * eps <= 1 * eps) by (apply Qmult_le_compat_r; [lra|exact EP]).
  clearbody f. set (q := rnd y) in *. clearbody q y. generalize dependent eps. intros ep. intros. apply Qabs_Qle_condition. lra.
Qed.

(** 1/size *)
Lemma one_close : forall n, (0 < n <= 2 ^ 53)%Z -> let f := rnd (1 / rnd (inject_Z n)) in 0 <= f /\ Qabs (f - inject_Z 1 / inject_Z n) <= 4 * eps.
Proof.
  intros n L f. pose proof (small_exact n ltac:(lia)) as EN. assert (N0 : 1 <= inject_Z n) by (change 1 with (inject_Z 1); rewrite <- Zle_Qle; lia).
  set (y := 1 / rnd (inject_Z n)) in *. assert (EY : y == inject_Z 1 / inject_Z n) by (unfold y; rewrite EN; reflexivity).
  change (inject_Z 1) with 1 in *. assert (Y0 : 0 <= y) by (rewrite EY; apply Qle_shift_div_l; lra). assert (Y1 : y <= 1) by (rewrite EY; apply Qle_shift_div_r; lra).
  split; [unfold f; now apply rnd_pos|]. rewrite <- EY. unfold f. eapply Qle_trans; [apply rnd_err|]. rewrite Qabs_pos by exact Y0.
  apply Qmult_le_compat_r; [lra|discriminate].
Qed.

Lemma line_shown : forall cps n d k f, 0 < cps -> (0 <= d < 2 ^ 63)%Z -> 0 <= f -> Qabs (f - inject_Z k / inject_Z n) <= 4 * eps ->
  shows_ops cps n (d, k) (rcdf_line cps d f).
Proof.
  intros cps n d k f C L F K. destruct (latency_shown cps d 8 C L) as (t & T1 & T2). destruct (fixedp_number 10 11 f (Nat.lt_0_succ 9) F) as (g & G1 & G2).
  exists (fixedp 2 8 (latency cps d)), (fixedp 10 11 f), t, g. split; [reflexivity|]. split; [exact T1|]. split; [exact G1|]. split; [exact T2|].
  cbn [snd]. change ((1 # 2) / inject_Z (10 ^ Z.of_nat 10)) with (1 # 20000000000) in G2. set (x := inject_Z k / inject_Z n) in *. clearbody x.
  setoid_replace (g - x) with ((g - f) + (f - x)) by ring. eapply Qle_trans; [apply Qabs_triangle|]. assert (E : 4 * eps <= (1 # 2 ^ 50)) by discriminate. lra.
Qed.

Open Scope Z_scope.

(** ** The table *)
Lemma print_shown : forall bound cps n, (0 < cps)%Q -> n <= 2 ^ 53 -> forall l i lp, Forall (fun d => 0 <= d < 2 ^ 63) (lp :: l) -> 0 <= i -> i + zlen l <= n ->
  exists ls, rcdf_print bound cps (rnd (inject_Z n)) i lp l = concat ls /\ Forall2 (shows_ops cps n) (rcdf_loop bound n i lp l) ls.
Proof.
  intros bound cps n C N. induction l as [|d l IH]; intros i lp F I0 IN; cbn [rcdf_print rcdf_loop]; [exists []; split; [reflexivity|constructor]|].
  inversion F as [|? ? F1 F2]; subst. inversion F2 as [|? ? F3 F4]; subst. rewrite zlen_cons in IN. pose proof (zlen_nonneg _ l) as ZL.
  destruct (bound <? to_u 64 (d - lp)).
  - destruct (IH (i + 1) d F2 ltac:(lia) ltac:(lia)) as (ls & E1 & E2). rewrite E1. eexists (_ :: ls). split; [reflexivity|]. constructor; [|exact E2].
    destruct (fraction_close i n ltac:(lia) N) as [P K]. now apply line_shown.
  - apply IH; [constructor; assumption|lia|lia].
Qed.

Lemma sum_bound : forall r s, 0 <= s < 2 ^ 64 -> 0 <= fold_left (fun s d => to_u 64 (s + d)) r s < 2 ^ 64.
Proof. induction r as [|d r IH]; intros s H; cbn [fold_left]; [exact H|]. apply IH. unfold to_u. lia. Qed.

Lemma last_in_range : forall d0 r, Forall (fun d => 0 <= d < 2 ^ 63) (d0 :: r) -> 0 <= last (d0 :: r) 0 < 2 ^ 63.
Proof.
  intros d0 r. revert d0. induction r as [|d r IH]; intros d0 F; inversion F; subst; [assumption|]. change (last (d0 :: d :: r) 0) with (last (d :: r) 0). now apply IH.
Qed.

Theorem C85_text : C85_stmt.
Proof.
  intros cps sorted bound lines mean C F N B H. unfold rcdf_text. rewrite B. destruct sorted as [|d0 r]; [discriminate H|]. unfold runRCDF in H. apply some_inj in H.
  pose proof (f_equal fst H) as H1. pose proof (f_equal snd H) as H2. cbn [fst snd] in H1, H2. clear H. cbv zeta. rewrite H2.
  pose proof (zlen_nonneg _ r) as ZR. assert (ZN : zlen (d0 :: r) = 1 + zlen r) by (rewrite zlen_cons; lia).
  assert (MB : 0 <= mean < 2 ^ 63).
  { subst mean. pose proof (sum_bound r 0 ltac:(lia)) as SB. destruct r as [|d1 r]; [vm_compute; split; [discriminate|reflexivity]|]. pose proof (zlen_nonneg _ r). rewrite (zlen_cons _ d1) in *.
    set (S := fold_left _ _ 0) in *. clearbody S. set (n := zlen (d0 :: d1 :: r)) in *. assert (2 <= n) by lia.
    split; [apply Z.div_pos; lia|]. apply Z.div_lt_upper_bound; [lia|]. nia. }
  set (n := zlen (d0 :: r)) in *. assert (F1 : 0 <= d0 < 2 ^ 63) by (inversion F; assumption).
  destruct (print_shown bound cps n C N r 1 d0 F ltac:(lia) ltac:(lia)) as (mid & P1 & P2).
  destruct (one_close n ltac:(lia)) as [O1 O2].
  destruct (latency_shown cps mean 0 C MB) as (m & M1 & M2).
  exists (rcdf_line cps d0 1 :: mid ++ [rcdf_line cps (last (d0 :: r) 0) (rnd (1 / rnd (inject_Z n)))]), (fixedp 2 0 (latency cps mean)), m.
  split; [|split; [|split; [exact M1|exact M2]]].
  - f_equal. rewrite P1. unfold rcdf_head. cbn [concat]. rewrite concat_app. cbn [concat]. rewrite app_nil_r, <- !app_assoc. reflexivity.
  - subst lines. constructor.
    + apply line_shown; [exact C|exact F1|discriminate|]. setoid_replace (1 - inject_Z n / inject_Z n)%Q with 0%Q; [discriminate|]. field.
      intro X. assert (Y : (0 < inject_Z n)%Q) by (change 0%Q with (inject_Z 0); rewrite <- Zlt_Qlt; lia). lra.
    + apply Forall2_app; [exact P2|]. constructor; [|constructor]. apply line_shown; auto. apply last_in_range, F.
Qed.
Print Assumptions C85_text.

(** ** Example: 2 GHz; differences of 1.5, 2, 5 and 15 ns. *)
Example C85_table : rcdf_text 2000000000 [3; 4; 10; 30] = Some (rcdf_head ++
  chars "    1.50    1.0000000000" ++ [13; 10] ++ chars "    1.50    0.7500000000" ++ [13; 10] ++ chars "    2.00    0.5000000000" ++ [13; 10] ++
  chars "    5.00    0.2500000000" ++ [13; 10] ++ chars "   15.00    0.2500000000" ++ [13; 10] ++ [13; 10] ++ chars "# The mean was 5.50 ns" ++ [13; 10]).
Proof. vm_compute. reflexivity. Qed.
