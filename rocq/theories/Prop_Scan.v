(** C29: one scan looks at every buffer.  C44: the compression thread never gets stuck. *)
From Verif Require Import Base BaseProofs FrontFmt Args ArgsProofs DecodeProofs Encoder Wire EncoderProofs Prop_Encoder Prop_Decoder
  Ring RingProofs Prop_Ring Runtime RtRing RtBuf RtInv RtSafe RtFile RtScan Prop_Runtime RtRuns Prop_RuntimeRuns.

Ltac Zify.zify_post_hook ::= Z.div_mod_to_equations.

(** ** C29 *)

Definition orderly (l : rlabel) (t : rt) : Prop := proper l t /\ uninterrupted l.

(** [t_gstart]: the buffers registered when the scan started; [t_gseen]: those whose [peek]
    it has used.  A scan is over at [KIdle]. *)
Definition C29_statement : Prop := forall t, reach orderly t ->
  t_kpc t = KIdle -> t_kfull t = false -> forall id, In id (t_gstart t) -> In id (t_gseen t).

Lemma orderly_legal : forall l t, orderly l t -> legal False l t.
Proof. intros l t (A & B). now apply proper_legal. Qed.

Lemma orderly_inv : forall t, reach orderly t -> inv False t.
Proof. intros t R. eapply reach_inv; [|exact R]. apply orderly_legal. Qed.

Lemma orderly_scan : forall t, reach orderly t -> inv_scan t.
Proof.
  intros t R. induction R; [eapply init_scan; eauto|]. eapply step_scan; eauto. now apply orderly_inv.
Qed.

(** [t_skip]: during this scan, the buffer deleted was the one at the position where the scan
    started.  Otherwise the scan looks at every buffer. *)
Theorem C29_scan_looks_at_all_partial : forall t, reach orderly t ->
  t_kpc t = KIdle -> t_kfull t = false -> t_skip t = false -> forall id, In id (t_gstart t) -> In id (t_gseen t).
Proof.
  intros t R EP EF ES id Hi. destruct (orderly_scan t R) as (A & B & C & D & F & G). specialize (G ES EF). rewrite EP in G.
  apply C in Hi as Hj. apply in_app_or in Hj. destruct Hj as [Hj | Hj]; apply in_map_iff in Hj; destruct Hj as (b & <- & Hb).
  - apply In_nth_error in Hb. destruct Hb as (p & Hb). destruct (G p b Hb I) as [X | X]; [exact X|contradiction].
  - eapply Forall_forall in F; [|exact Hb]. destruct F as [X | X]; [exact X|contradiction].
Qed.
Print Assumptions C29_scan_looks_at_all_partial.

(** ** C44 *)

Lemma stuck_where : forall small t, inv small t -> inv_scan t -> k_step t = None ->
  t_kpc t = KExit \/ (t_kpc t = KIo /\ t_outst t = true /\ t_flight t <> [] /\ t_kfull t = true).
Proof.
  intros small t HI (A & B & _) E.
  unfold k_step in E. destruct (t_kpc t) eqn:EP; try discriminate; auto.
  - (* KScan *) exfalso. destruct (t_kfull t); [discriminate|]. destruct (t_bufs t) as [|x xs] eqn:EB; [discriminate|]. rewrite <- EB in *.
    assert (L : 0 <= t_ki t < zlen (t_bufs t)) by (destruct A as (_ & _ & A1 & [A2 | (A2 & _)]); [lia|congruence]).
    destruct (nth_error (t_bufs t) (Z.to_nat (t_ki t))) as [b|] eqn:EN; [|apply nth_error_None in EN; unfold zlen in L; lia].
    pose proof (at_cur _ _ _ _ B (proj1 L) EN) as P. cbn [cur_pc] in P.
    unfold on_ring in E. rewrite EN in E. unfold ring_step in E. cbv zeta in E. destruct (c_pc _); try destruct P; discriminate.
  - (* KPeek *) exfalso. assert (L : 0 <= t_ki t < zlen (t_bufs t)) by (destruct A as (_ & _ & A1); exact A1).
    destruct (nth_error (t_bufs t) (Z.to_nat (t_ki t))) as [b|] eqn:EN; [|apply nth_error_None in EN; unfold zlen in L; lia].
    pose proof (at_cur _ _ _ _ B (proj1 L) EN) as P. cbn [cur_pc] in P.
    destruct (c_pc (r_c (b_ring b))) eqn:EC; try destruct P.
    + unfold on_ring in E. rewrite EN in E. unfold ring_step in E. cbv zeta in E. unfold consumer_step in E. rewrite EC in E.
      destruct (cached <? _); [destruct (0 <? _)|]; discriminate.
    + unfold on_ring in E. rewrite EN in E. unfold ring_step in E. cbv zeta in E. unfold consumer_step in E. rewrite EC in E. discriminate.
    + destruct (0 <? n) eqn:E0; [discriminate|]. unfold on_ring in E. rt_cbn_in E. rewrite EN in E. unfold ring_step in E. cbv zeta in E. rewrite EC in E.
      assert (HO : buf_ok small (t_sites t) b). { inv_split HI. destruct HBu as (HBu & _). eapply Forall_forall; [exact HBu|eapply nth_error_In; eauto]. }
      destruct (handed_messages _ _ _ _ HO EC) as (j & _ & X). cbv zeta in X. destruct X as (_ & X & _).
      pose proof (zlen_nonneg _ (concat (firstn (j - b_taken b) (skipn (b_taken b) (r_sent (b_ring b)))))).
      replace (n =? 0) with true in E by lia. discriminate.
  - (* KEnc *) exfalso. assert (L : 0 <= t_ki t < zlen (t_bufs t)) by (destruct A as (_ & _ & A1); exact A1).
    destruct (nth_error (t_bufs t) (Z.to_nat (t_ki t))) as [b|] eqn:EN; [|apply nth_error_None in EN; unfold zlen in L; lia].
    pose proof (at_cur _ _ _ _ B (proj1 L) EN) as P. cbn [cur_pc] in P.
    destruct (c_pc (r_c (b_ring b))) eqn:EC; try destruct P. destruct (n =? 0) eqn:E0; [discriminate|].
    inv_split HI. destruct HBu as (HBu & _). assert (HO : buf_ok small (t_sites t) b) by (eapply Forall_forall; [exact HBu|eapply nth_error_In; eauto]).
    assert (HI0 : 0 <= b_id b < 2 ^ 32).
    { destruct HId as (_ & X & Y & _). eapply Forall_forall in X; [|apply in_or_app; left; apply in_map; eapply nth_error_In; eauto]. cbv beta in X. lia. }
    assert (n0 : 0 < n).
    { destruct (handed_messages _ _ _ _ HO EC) as (j & _ & X). cbv zeta in X. destruct X as (_ & X & _).
      pose proof (zlen_nonneg _ (concat (firstn (j - b_taken b) (skipn (b_taken b) (r_sent (b_ring b)))))). lia. }
    unfold k_encode in E. destruct HKn as (_ & _ & _ & _ & K5). rewrite K5 in E.
    destruct (encodeLogMsgs _ _ _ _ _ _ _) as [[e read] cnt] eqn:EE. destruct (read =? 0) eqn:E1; [discriminate|].
    destruct (buf_encode small (t_sites t) (Z.to_nat (t_nextp t)) b n (t_en t) (t_kwrap t) e read cnt HO EC n0 (proj1 HEn) HI0 EE)
      as (R1 & R2 & R3 & R4 & R5). destruct R4 as (r' & R4 & _); [lia|]. unfold STAGING_BUFFER_SIZE in *. rewrite R4 in E. discriminate.
  - (* KCheck *) exfalso. assert (L : 0 <= t_ki t < zlen (t_bufs t)) by (destruct A as (_ & _ & A1); exact A1).
    destruct (nth_error (t_bufs t) (Z.to_nat (t_ki t))) as [b|] eqn:EN; [|apply nth_error_None in EN; unfold zlen in L; lia].
    pose proof (at_cur _ _ _ _ B (proj1 L) EN) as P. cbn [cur_pc] in P. rewrite P in E.
    unfold on_ring in E. rewrite EN in E. unfold ring_step in E. cbv zeta in E. unfold consumer_step in E. rewrite P in E. rt_cbn_in E.
    rewrite update_nth, EN, Nat.eqb_refl in E. destruct (c_pc _); discriminate.
  - (* KIo *) right. unfold k_io in E. destruct (t_outst t); [|discriminate]. destruct (t_flight t); [discriminate|]. destruct (t_kfull t); [|discriminate].
    splits; auto. discriminate.
Qed.

Theorem C44_thread_never_stuck : forall t, reach orderly t -> k_step t = None ->
  t_kpc t = KExit \/ (t_kpc t = KIo /\ t_outst t = true /\ t_flight t <> [] /\ t_kfull t = true).
Proof. intros t R E. apply (stuck_where False); auto using orderly_inv, orderly_scan. Qed.
Print Assumptions C44_thread_never_stuck.

(** ** The full C29 fails *)

Definition exit_thread (j : nat) : list rlabel := [RExit j; RCommitP j].

(** The first thread exits, the second logs a message; the scan that deletes the first
    buffer does not look at the second. *)
Definition skipping_run : list rlabel := exit_thread 0 ++ log 1 (msg 50 7) ++ think 7.

Theorem C29_scan_looks_at_all_refuted : ~ C29_statement.
Proof.
  intro H. destruct (demo_run 200 2 skipping_run) as [t|] eqn:E.
  - assert (R : reach orderly t).
    { apply (demo_states _ 200 2 skipping_run t); try lia; auto.
      - intros l s N. split; apply N.
      - intros l s Hl P _ N. split; [exact P|]. intros ->. vm_compute in Hl. intuition discriminate. }
    assert (X : match demo_run 200 2 skipping_run with Some t => t_kpc t = KIdle /\ t_kfull t = false /\ t_gstart t = [0; 1] /\ t_gseen t = [0] | None => False end)
      by (vm_compute; splits; reflexivity).
    rewrite E in X. destruct X as (X1 & X2 & X3 & X4). specialize (H t R X1 X2 1). rewrite X3, X4 in H.
    destruct H as [H | []]; [right; now left|discriminate H].
  - assert (X : match demo_run 200 2 skipping_run with Some _ => true | None => false end = true) by (vm_compute; reflexivity). rewrite E in X. discriminate X.
Qed.
Print Assumptions C29_scan_looks_at_all_refuted.

(** Had the second thread exited, both would have been looked at. *)
Example C29_instance :
  match demo_run 200 2 (exit_thread 1 ++ log 0 (msg 50 7) ++ think 13) with
  | Some t => t_kpc t = KIdle /\ t_kfull t = false /\ t_skip t = false /\ t_gstart t = [0; 1] /\ t_gseen t = [0; 1] /\ map b_id (t_bufs t) = [0]
  | None => False end.
Proof. vm_compute. splits; reflexivity. Qed.
