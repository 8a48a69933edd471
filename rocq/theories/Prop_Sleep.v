(** C83: Cycles::sleep waits for the time it is given. *)
From Coq Require Import QArith Qabs Qround Lqa.
From Verif Require Import Base BaseProofs Chars Fmt Preproc PreprocProofs TimeFmt TimeProofs Prop_Time Prop_TimeOrder Cycles Prop_Cycles Sleep.
Open Scope Z_scope.
Ltac Zify.zify_post_hook ::= Z.div_mod_to_equations.

(** ** Specification *)

(** The cycles in [us] microseconds, up to half a cycle and the precision of doubles. *)
Definition wanted (us : Z) (cps : Q) : Q := (inject_Z us * cps / 1000000)%Q.
Definition slack (us : Z) (cps : Q) : Q := ((1 # 2) + (wanted us cps + 1) / inject_Z (2 ^ 50))%Q.
Definition enough (us : Z) (cps : Q) (cycles : Z) : Prop := (wanted us cps - slack us cps <= inject_Z cycles)%Q.
Definition too_many (us : Z) (cps : Q) (cycles : Z) : Prop := (wanted us cps + slack us cps <= inject_Z cycles)%Q.

(** It does not return before the time is over, and goes on to wait only if it is not. *)
Definition sleeps (us : Z) (cps : Q) (t0 : Z) (readings : list Z) : Prop :=
  exists waited rest, sleep us cps t0 readings = Some (waited, rest) /\ readings = waited ++ rest /\
    Forall (fun t => ~ too_many us cps (t - t0)) waited /\
    match rest with [] => True | t :: _ => enough us cps (t - t0) end.

(** The counter: 64 bits that do not run over. *)
Definition C83_full : Prop := forall us cps t0 readings, 0 <= us < 2 ^ 64 -> (0 < cps)%Q -> 0 <= t0 < 2 ^ 63 ->
  Forall (fun t => t0 <= t < 2 ^ 64) readings -> sleeps us cps t0 readings.

(** ** Proof *)
Lemma wait_spec : forall stop rs w rest, wait stop rs = (w, rest) -> rs = w ++ rest /\ Forall (fun t => t < stop) w /\
  match rest with [] => True | t :: _ => stop <= t end.
Proof.
  intros stop. induction rs as [|t rs IH]; intros w rest H; cbn [wait] in H; [injection H as <- <-; repeat split; constructor|].
  destruct (t <? stop) eqn:E.
  - destruct (wait stop rs) as [w' rest'] eqn:W. injection H as <- <-. destruct (IH _ _ eq_refl) as (-> & F & R). repeat split; [|exact R]. constructor; [lia|exact F].
  - injection H as <- <-. split; [reflexivity|]. split; [constructor|lia].
Qed.

Lemma wanted_exact : forall us cps, (exact_cycles (1000 * us) cps == wanted us cps)%Q.
Proof. intros us cps. unfold exact_cycles, wanted. rewrite inject_Z_mult. change (inject_Z 1000) with (1000 # 1)%Q. field. Qed.

Lemma wanted_pos : forall us cps, 0 <= us -> (0 < cps)%Q -> (0 <= wanted us cps)%Q.
Proof.
  intros us cps H C. unfold wanted, Qdiv. apply Qmult_le_0_compat; [|discriminate]. apply Qmult_le_0_compat; [|lra].
  change 0%Q with (inject_Z 0). rewrite <- Zle_Qle. exact H.
Qed.

Theorem C83_partial : forall us cps t0 readings, 0 <= us -> 1000 * us < 2 ^ 64 -> (0 < cps)%Q -> (wanted us cps <= inject_Z (2 ^ 62))%Q -> 0 <= t0 < 2 ^ 63 ->
  Forall (fun t => t0 <= t < 2 ^ 64) readings -> sleeps us cps t0 readings.
Proof.
  intros us cps t0 readings U1 U2 C W T R. pose proof (wanted_exact us cps) as WE. pose proof (wanted_pos us cps U1 C) as W0.
  destruct (proj1 (cycles_ok cps C) (1000 * us) ltac:(lia)) as (c & E & RC).
  { rewrite WE. apply Qle_trans with (1 := W). rewrite <- Zle_Qle. lia. }
  unfold rounds in RC. apply Qabs_Qle_condition in RC. destruct RC as [RC1 RC2].
  assert (SL : ((1 # 2) + (exact_cycles (1000 * us) cps + 1) / inject_Z (2 ^ 50) == slack us cps)%Q) by (unfold slack; rewrite WE; reflexivity).
  rewrite SL, WE in RC1, RC2.
  assert (SB : (slack us cps <= inject_Z (2 ^ 13))%Q).
  { unfold slack, Qdiv. change (/ inject_Z (2 ^ 50))%Q with (1 # 1125899906842624)%Q. change (inject_Z (2 ^ 62)) with (4611686018427387904 # 1)%Q in W.
    change (inject_Z (2 ^ 13)) with (8192 # 1)%Q. lra. }
  assert (C1 : c < 2 ^ 63). { rewrite Zlt_Qlt. change (inject_Z (2 ^ 63)) with (9223372036854775808 # 1)%Q. change (inject_Z (2 ^ 62)) with (4611686018427387904 # 1)%Q in W.
    change (inject_Z (2 ^ 13)) with (8192 # 1)%Q in SB. lra. }
  assert (C0 : 0 <= c). { unfold fromNanoseconds, to_uint64 in E. match type of E with (if ?b then _ else _) = _ => destruct b eqn:B; [|discriminate E] end.
    apply andb_prop in B. destruct B as [B _]. injection E as <-. now apply Z.leb_le. }
  unfold sleeps, sleep, sleep_stop. replace (to_u 64 (1000 * us)) with (1000 * us) by (unfold to_u; lia). rewrite E. cbn [option_map].
  replace (to_u 64 (t0 + c)) with (t0 + c) by (unfold to_u; lia).
  destruct (wait (t0 + c) readings) as [w rest] eqn:WT. destruct (wait_spec _ _ _ _ WT) as (A1 & A2 & A3).
  exists w, rest. split; [reflexivity|]. split; [exact A1|]. split.
  - rewrite Forall_forall in *. intros t Ht TM. specialize (A2 t Ht). unfold too_many in TM. assert (L : (t - t0 < c)) by lia. rewrite Zlt_Qlt in L. lra.
  - destruct rest as [|t rest]; [exact I|]. unfold enough. assert (L : c <= t - t0) by lia. rewrite Zle_Qle in L. lra.
Qed.
Print Assumptions C83_partial.

(** 2^61 microseconds: 1000*us is 0. *)
Theorem C83_refuted : ~ C83_full.
Proof.
  intro H. destruct (H (2 ^ 61) 1000000000%Q 0 [0] ltac:(lia) ltac:(reflexivity) ltac:(lia) ltac:(repeat constructor; lia)) as (w & rest & E & _ & _ & EN).
  vm_compute in E. injection E as <- <-. vm_compute in EN. apply EN. reflexivity.
Qed.
Print Assumptions C83_refuted.

(** ** Examples *)

(** 3 microseconds at 2.4 GHz are 7200 cycles. *)
Example C83_three : sleep 3 2400000000 1000000 [1000100; 1004000; 1008199; 1008200; 1009000] = Some ([1000100; 1004000], [1008199; 1008200; 1009000]) /\
  sleep 3 2400000000 1000000 [1007199; 1007200] = Some ([1007199], [1007200]) /\ sleep 0 2400000000 5 [5] = Some ([], [5]).
Proof. split; [|split]; vm_compute; reflexivity. Qed.
