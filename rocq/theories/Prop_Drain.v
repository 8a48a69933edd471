(** C46: logged messages get into the file, and calls of sync() return.  C47: setLogFile() and
    the destructor of the logger end. *)
From Verif Require Import Base BaseProofs Chars FrontFmt Args Printf ArgsProofs Prop_Message DecodeProofs Encoder Wire EncoderProofs Prop_Encoder Decoder FileSpec DecoderProofs Prop_Decoder
  Ring RingProofs Prop_Ring Runtime RtRing RtBuf RtInv RtSafe RtFile RtScan RtSync Prop_Runtime RtRuns Prop_RuntimeRuns Prop_Scan Prop_Sync RtDrain.

Ltac Zify.zify_post_hook ::= Z.div_mod_to_equations.

(** ** C46 *)

(** Only the compression thread takes steps, and writes to the file complete. *)
Definition alone (ls : list rlabel) : Prop := Forall (fun l => l = RThread \/ l = RIoDone 0) ls.

(** Of thread [id], the number of messages in the files. *)
Definition filed (t : rt) (id : Z) : nat := length (emitted id (concat (t_golds t) ++ t_gfile t)).

(** Running alone for long enough, the thread brings each message that has reached memory
    into the file, lets each call of sync() return, and deletes each buffer whose thread is
    known to have exited. *)
Definition gets_done (t : rt) : Prop :=
  exists ls t', alone ls /\ rt_run ls t = Some t' /\
    (forall b j, In b (t_bufs t ++ t_gone t) -> visible (b_ring b) j = true -> (j <= filed t' (b_id b))%nat) /\
    t_waiters t' = [] /\ t_returned t' = t_returned t ++ map w_snap (t_waiters t) /\
    (forall b, In b (t_bufs t') -> s_dead (r_mem (b_ring b)) = false).

(** In all states that occur, whatever the size of the output buffer that Config.h:45-47 admits. *)
Definition C46_statement : Prop :=
  forall t, reach orderly t -> t_kexit t = false -> SBS <= t_osize t -> gets_done t.

(** *** The flag that tells the thread to stop *)

Definition flagged (t : rt) : Prop :=
  (t_kpc t = KExit -> t_kexit t = true) /\ (t_kexit t = true <-> t_sw t = SwJoin) /\
  (t_sw t = SwSync -> exists w, In w (t_waiters t) /\ w_switch w = true).


Lemma notify_kexit : forall t, t_kexit (notify t) = t_kexit t.
Proof. intros t. unfold notify. destruct (t_waiters t) as [|w ws]; [|destruct (w_switch w)]; reflexivity. Qed.

Lemma notify_flagged : forall t, sw_inv t -> flagged t -> flagged (notify t).
Proof.
  intros t (S1 & S2) (A & B & C). unfold notify. destruct (t_waiters t) as [|w ws] eqn:EW; [unfold flagged; rewrite EW; splits; auto; apply B|].
  destruct (w_switch w) eqn:ES; unfold flagged; rt_cbn.
  - assert (X : t_sw t = SwSync).
    { destruct (t_sw t) eqn:E0; auto; exfalso; unfold one_switch in S1; rewrite EW, E0 in S1; rewrite (S1 ltac:(discriminate) w (or_introl eq_refl)) in ES; discriminate. }
    assert (N : t_kexit t <> true) by (intro Y; apply B in Y; congruence).
    split; [exact A|]. split; [|discriminate]. split; [intro Y; contradiction|discriminate].
  - split; [exact A|]. split; [exact B|]. intros X. destruct (C X) as (w0 & [<- | H] & H0); [congruence|]. eauto.
Qed.

Lemma flagged_like : forall t s, sw_inv t -> flagged t -> t_kexit s = t_kexit t -> w3 s = w3 t \/ w3 s = w3 (notify t) -> (t_kpc s = KExit -> t_kexit t = true) -> flagged s.
Proof.
  intros t s S H E1 E2 E3.
  assert (X : exists u, flagged u /\ t_kexit u = t_kexit t /\ w3 s = w3 u).
  { destruct E2 as [E2 | E2]; [exists t; auto|]. exists (notify t). splits; auto; [now apply notify_flagged|apply notify_kexit]. }
  destruct X as (u & (A & B & C) & X1 & X2). unfold w3 in X2. injection X2 as X2 _ X3. unfold flagged. rewrite E1, X2, X3. rewrite X1 in *. splits; auto; apply B.
Qed.

Lemma exit_step : forall t t', k_step t = Some t' -> t_kpc t' = KExit -> t_kexit t = true.
Proof.
  unfold k_step. intros t t' E EX. destruct (t_kpc t) eqn:EK; try discriminate E.
  - apply some_inj in E. subst t'. rt_cbn_in EX. destruct (t_kexit t); auto. discriminate EX.
  - apply some_inj in E. subst t'. unfold k_dict in EX. destruct (_ <? _); [destruct (encodeNewDictionaryEntries _ _ _) as ((e & n) & d)|]; discriminate EX.
  - destruct (t_kfull t); [apply some_inj in E; subst t'; discriminate|]. destruct (t_bufs t); [apply some_inj in E; subst t'; discriminate|].
    destruct (on_ring _ _ _) as [t1|] eqn:E1; [|discriminate]. apply some_inj in E. subst t'. discriminate.
  - destruct (nth_error _ _) as [b|]; [|discriminate].
    assert (OR : forall j l t0 t1, on_ring j l t0 = Some t1 -> t_kpc t1 = t_kpc t0) by (intros j l t0 t1 X; apply on_ring_out in X; destruct X as (b1 & r & _ & _ & ->); reflexivity).
    destruct (c_pc _); try discriminate E; try (apply OR in E; congruence).
    destruct (0 <? n); [apply some_inj in E; subst t'; discriminate|]. destruct (on_ring _ _ _) as [t1|] eqn:E1; [|discriminate].
    apply some_inj in E. subst t'. rt_cbn_in EX. destruct (s_dead _); discriminate.
  - destruct (nth_error _ _) as [b|]; [|discriminate]. destruct (c_pc _); try discriminate E. destruct (n =? 0); [apply some_inj in E; subst t'; discriminate|].
    unfold k_encode in E. destruct (encodeLogMsgs _ _ _ _ _ _ _) as ((e & read) & cnt). destruct (read =? 0); [apply some_inj in E; subst t'; discriminate|].
    destruct (ring_run _ _ _); [|discriminate]. apply some_inj in E. subst t'. rt_cbn_in EX. congruence.
  - destruct (nth_error _ _) as [b|]; [|discriminate]. destruct (c_pc _); try discriminate E.
    destruct (on_ring _ _ _) as [t1|] eqn:E1; [|discriminate].
    destruct (nth_error _ _) as [b'|]; [|discriminate]. destruct (c_pc _); apply some_inj in E; subst t'; try discriminate EX.
    unfold k_delete in EX. destruct (remove_at _ _); discriminate EX.
  - apply some_inj in E. subst t'. unfold k_next in EX. rt_cbn_in EX. destruct (_ =? _); discriminate EX.
  - apply some_inj in E. subst t'. unfold k_idle in EX. destruct (_ =? 0); [|discriminate EX]. destruct (t_sync t); try discriminate EX.
    + destruct (t_outst t); [discriminate EX|]. rewrite notify_kpc in EX. discriminate EX.
    + rewrite notify_kpc in EX. discriminate EX.
  - unfold k_io in E. destruct (t_outst t); [|apply some_inj in E; subst t'; discriminate]. destruct (t_flight t); [|destruct (t_kfull t); [discriminate|apply some_inj in E; subst t'; discriminate]].
    apply some_inj in E. subst t'. unfold k_finish_io in EX. destruct (t_sync t); try discriminate EX. rewrite notify_kpc in EX. discriminate EX.
  - apply some_inj in E. subst t'. unfold k_write in EX. destruct (_ =? 0); [discriminate EX|]. destruct (swapBuffer _ _ _). discriminate EX.
Qed.

Lemma step_flagged : forall small l t t', inv small t -> sw_inv t -> flagged t -> rt_step l t = Some t' -> flagged t'.
Proof.
  intros small l t t' HI S F E. pose proof F as (A & B & C). pose proof (flagged_like t) as NO.
  assert (OR : forall j l, on_ring j l t = Some t' -> flagged t').
  { intros j l0 X. pose proof (on_ring_same _ _ _ _ X) as (_ & _ & Y). apply on_ring_out in X. destruct X as (b1 & r & _ & _ & ->). apply NO; auto. }
  destruct l; cbn [rt_step] in E; try (eapply OR; exact E).
  - apply some_inj in E. subst t'. apply NO; auto.
  - apply some_inj in E. subst t'. apply NO; auto.
  - destruct (nth_error _ _); [|discriminate]. apply some_inj in E. subst t'. apply NO; auto.
  - destruct (nth_error (t_sites t) _); [|discriminate]. destruct (nth_error _ _); [|discriminate]. destruct (ring_step _ _ _); [|discriminate]. apply some_inj in E. subst t'. apply NO; auto.
  - pose proof (exit_step _ _ E). pose proof (thread_kept _ _ _ HI E) as (_ & K & _). apply thread_files in E. apply NO; auto. tauto.
  - destruct (nth_error _ _) as [(base & n)|]; [|discriminate]. apply some_inj in E. subst t'. apply NO; auto.
  - destruct (t_kpc t) eqn:EK; try discriminate E. destruct (t_flight t); [discriminate|]. destruct (_ && _); [|discriminate]. apply some_inj in E. subst t'.
    pose proof (finish_w3 t). apply NO; auto; unfold k_finish_io in *; destruct (t_sync t); rewrite ?notify_kexit, ?notify_kpc; try reflexivity; discriminate.
  - destruct (snap_ok _ _); [|discriminate]. apply some_inj in E. subst t'. unfold flagged. rt_cbn. splits; auto; try apply B.
    intros X. destruct (C X) as (w & W1 & W2). exists w. split; auto. apply in_or_app. now left.
  - destruct (t_waiters t) as [|w ws] eqn:EW; [discriminate|]. apply some_inj in E. subst t'. unfold flagged. rt_cbn. splits; auto; try apply B.
    intros X. destruct (C X) as (w0 & W1 & W2). exists w0. split; auto. apply in_or_app. destruct W1 as [W1 | W1]; [right; now left|now left].
  - destruct (t_waiters t) as [|w ws] eqn:EW; [discriminate|]. apply some_inj in E. subst t'. now apply notify_flagged.
  - destruct (t_sw t) eqn:ES; try discriminate E. destruct (snap_ok _ _); [|discriminate]. apply some_inj in E. subst t'. unfold flagged. rt_cbn. split; [exact A|]. split.
    + split; [|discriminate]. intros X. apply B in X. discriminate.
    + intros _. exists (Waiter snap true). split; [apply in_or_app; right; now left|reflexivity].
  - destruct (t_sw t) eqn:ES; try discriminate E. apply some_inj in E. subst t'. unfold flagged. rt_cbn. split; [auto|]. split; [split; auto|discriminate].
  - destruct (t_sw t) eqn:ES; try discriminate E. destruct (t_kpc t) eqn:EK; try discriminate E. destruct (encoder _ _ _ _ _ _ _); [|discriminate].
    apply some_inj in E. subst t'. unfold flagged. rt_cbn. split; [discriminate|]. split; [split; discriminate|discriminate].
  - destruct (t_kpc t) eqn:EK; try discriminate E. apply some_inj in E. subst t'. apply NO; auto; try discriminate.
Qed.

Lemma orderly_flagged : forall t, reach orderly t -> flagged t.
Proof.
  intros t R. induction R as [m size b1 b2 r u c t H0 H1 H2 H3 E|l t t' R IH HO E].
  - unfold rt_init in E. destruct (encoder _ _ _ _ _ _ _); [|discriminate]. apply some_inj in E. subst t. unfold flagged. rt_cbn. split; [discriminate|]. split; [split; discriminate|discriminate].
  - eapply (step_flagged False); eauto using orderly_inv, reach_sw.
Qed.

(** *** The thread gets everything done *)

Lemma snap_one : forall (t : rt) b j, In b (t_bufs t ++ t_gone t) -> visible (b_ring b) j = true -> vis [Waiter [(b_id b, j)] false] (t_bufs t ++ t_gone t).
Proof.
  intros t b j HB V id k (w & [<- | []] & [H | []]). injection H as <- <-. exists b. auto.
Qed.

Lemma good_done : forall small t, good small t -> flagged t -> t_kexit t = false -> room small t ->
  exists ls t', alone ls /\ rt_run ls t = Some t' /\ good small t' /\ kept t t' /\ RtDrain.done t' /\
    (forall b j, In b (t_bufs t ++ t_gone t) -> visible (b_ring b) j = true -> (j <= filed t' (b_id b))%nat) /\
    t_waiters t' = [] /\ t_returned t' = t_returned t ++ map w_snap (t_waiters t) /\
    (forall b, In b (t_bufs t') -> s_dead (r_mem (b_ring b)) = false).
Proof.
  intros small t HG (F & _) EX HO. destruct (drains small t HG) as (t' & ((ls & L1 & L2) & HG' & KP) & D); auto; [intro X; apply F in X; congruence|].
  exists ls, t'. splits; auto.
  - intros b j HB V. destruct KP as (_ & _ & _ & _ & _ & KV). apply (done_all small t' (b_id b) j); auto; [apply HG'|]. apply KV. now apply snap_one.
  - apply D.
  - destruct KP as (_ & _ & _ & _ & KR & _). destruct D as (_ & _ & _ & _ & _ & _ & D). rewrite D in KR. cbn [map] in KR. now rewrite app_nil_r in KR.
  - destruct D as (_ & _ & _ & _ & D & _). rewrite Forall_forall in D. intros b HB. now destruct (D b HB).
Qed.

Lemma orderly_good : forall t, reach orderly t -> good False t.
Proof. intros t R. unfold good. splits; auto using orderly_inv, orderly_scan, orderly_live. Qed.

Lemma normal_good : forall conv text t, reach (normal conv text) t -> good True t.
Proof.
  intros conv text t R. assert (RO : reach orderly t) by (eapply reach_weaken; [|exact R]; apply normal_orderly).
  unfold good. splits; auto using orderly_scan, orderly_live. eapply normal_inv; eauto.
Qed.

(** Missing from [C46_statement]: output buffers smaller than two staging buffers and 25 bytes. *)
Theorem C46_gets_done_partial : forall t, reach orderly t -> t_kexit t = false -> 2 * SBS + 25 <= t_osize t -> gets_done t.
Proof.
  intros t R EX HO. destruct (good_done False t (orderly_good t R) (orderly_flagged t R) EX) as (ls & t' & A & B & _ & _ & _ & C & D & E & F); [unfold room, SBS in *; split; [lia|right; lia]|].
  exists ls, t'. splits; auto.
Qed.
Print Assumptions C46_gets_done_partial.

(** The same for programs whose messages are smaller than half a staging buffer, with what the
    decoder makes of the files then.  Missing: output buffers of less than a staging buffer and 25 bytes. *)
Definition shown_after conv text (t t' : rt) : Prop :=
  exists lss, Forall2 (decodes conv) (t_olds t' ++ [t_file t']) lss /\
    forall b j, In b (t_bufs t ++ t_gone t) -> visible (b_ring b) j = true ->
      (j <= length (concat (map (tid_lines (b_id b)) lss)))%nat /\
      Forall2 (shows (t_sites t) text (b_id b)) (firstn j (b_msgs b)) (firstn j (concat (map (tid_lines (b_id b)) lss))).

(** The compression thread, the disk, and setLogFile telling the thread to stop. *)
Definition helping (ls : list rlabel) : Prop := Forall (fun l => l = RThread \/ l = RIoDone 0 \/ l = RStop) ls.

Lemma alone_helping : forall ls, alone ls -> helping ls.
Proof. intros ls H. eapply Forall_impl; [|exact H]. intros l [-> | ->]; auto. Qed.

Lemma helping_reach : forall (ok : rlabel -> rt -> Prop) ls t t', (forall l s, l = RThread \/ l = RIoDone 0 \/ l = RStop -> ok l s) ->
  helping ls -> rt_run ls t = Some t' -> reach ok t -> reach ok t'.
Proof.
  intros ok. induction ls as [|l ls IH]; intros t t' H A E R; cbn [rt_run] in E; [apply some_inj in E; now subst|].
  inversion A. subst. destruct (rt_step l t) as [t1|] eqn:E1; [|discriminate]. apply (IH t1); auto. eapply reach_step; eauto.
Qed.

Lemma helping_orderly : forall l s, l = RThread \/ l = RIoDone 0 \/ l = RStop -> orderly l s.
Proof. intros l s X. destruct X as [-> | [-> | ->]]; unfold orderly, proper, uninterrupted; split; auto; discriminate. Qed.

Lemma helping_normal : forall conv text l s, l = RThread \/ l = RIoDone 0 \/ l = RStop -> normal conv text l s.
Proof. intros conv text l s X. destruct X as [-> | [-> | ->]]; unfold normal, proper, uninterrupted, small_messages, printable; splits; auto; discriminate. Qed.

Lemma helping_bufs : forall ls t t', helping ls -> rt_run ls t = Some t' ->
  forall b', In b' (t_bufs t' ++ t_gone t') -> b_msgs b' = [] \/ exists b, In b (t_bufs t ++ t_gone t) /\ b_id b = b_id b' /\ b_msgs b' = b_msgs b.
Proof.
  induction ls as [|l ls IH]; intros t t' A E b' HB; cbn [rt_run] in E; [apply some_inj in E; subst; right; eauto|].
  inversion A as [|? ? X Y]. subst. destruct (rt_step l t) as [t1|] eqn:E1; [|discriminate]. destruct (IH t1 t' Y E b' HB) as [Z | (b1 & Z1 & Z2 & Z3)]; [auto|].
  destruct (step_bufs _ _ _ E1) as (S1 & _). destruct (S1 b1 Z1) as [W | (b & W1 & W2 & W3)]; [left; congruence|]. right. exists b. splits; auto; try congruence.
  destruct W3 as [W3 | (j & x & W3 & _)]; [congruence|]. destruct X as [X | [X | X]]; congruence.
Qed.

Lemma shown_there : forall conv text ls t t', reach (normal conv text) t -> helping ls -> rt_run ls t = Some t' -> t_sites t' = t_sites t ->
  (forall ws, vis ws (t_bufs t ++ t_gone t) -> vis ws (t_bufs t' ++ t_gone t')) ->
  (forall b j, In b (t_bufs t ++ t_gone t) -> visible (b_ring b) j = true -> (j <= filed t' (b_id b))%nat) -> shown_after conv text t t'.
Proof.
  intros conv text ls t t' R A B KS KV C.
  assert (R' : reach (normal conv text) t') by (eapply helping_reach; eauto; apply helping_normal).
  destruct (file_lines conv text t' R') as (lss & L1 & L2). exists lss. split; [exact L1|].
  intros b j HB V. specialize (C b j HB V). unfold filed in C. specialize (L2 (b_id b)). pose proof (Forall2_len _ _ _ _ _ L2) as LE. split; [lia|].
  destruct (KV _ (snap_one t b j HB V) (b_id b) j) as (b' & B1 & B2 & B3); [exists (Waiter [(b_id b, j)] false); split; now left|].
  destruct (Nat.eq_dec j 0) as [-> | N0]; [constructor|]. pose proof (normal_inv _ _ _ R') as G.
  assert (HM : b_msgs b' = b_msgs b).
  { destruct (helping_bufs _ _ _ A B b' B1) as [M | (b0 & M1 & M2 & M3)].
    - exfalso. pose proof (vis_sent _ _ B3) as VS. pose proof G as GB. unfold inv in GB. destruct GB as (_ & (GB1 & GB2) & _).
      assert (BO : buf_ok True (t_sites t') b').
      { apply in_app_or in B1. destruct B1 as [B1 | B1]; [eapply Forall_forall in GB1; eauto|]. eapply Forall_forall in GB2; eauto. }
      destruct BO as (_ & _ & BO & _). rewrite M in BO. inversion BO as [X1 X2|]. unfold all_sent in X2. symmetry in X2. apply app_eq_nil in X2. destruct X2 as (X2 & _). rewrite X2 in VS. cbn in VS. lia.
    - rewrite M3. f_equal. apply (same_id (t_bufs t ++ t_gone t)); auto; [eapply inv_nodup, normal_inv; eauto|congruence]. }
  destruct (written_prefix True t' b' G B1) as (n & _ & P). rewrite B2, HM in P.
  apply (Forall2_firstn _ _ _ j) in L2. rewrite <- P in L2 at 1. rewrite firstn_firstn, Nat.min_l in L2 by lia. rewrite <- KS. exact L2.
Qed.

Theorem C46_gets_shown_partial : forall conv text t, reach (normal conv text) t -> t_kexit t = false -> SBS + 25 <= t_osize t ->
  exists ls t', alone ls /\ rt_run ls t = Some t' /\ shown_after conv text t t' /\
    t_waiters t' = [] /\ t_returned t' = t_returned t ++ map w_snap (t_waiters t) /\
    (forall b, In b (t_bufs t') -> s_dead (r_mem (b_ring b)) = false).
Proof.
  intros conv text t R EX HO. assert (RO : reach orderly t) by (eapply reach_weaken; [|exact R]; apply normal_orderly).
  destruct (good_done True t (normal_good _ _ t R) (orderly_flagged t RO) EX) as (ls & t' & A & B & G & K & _ & C & D & E & F); [unfold room, SBS in *; split; [lia|now left]|].
  exists ls, t'. splits; auto. destruct K as (KS & _ & _ & _ & _ & KV). eapply shown_there; eauto. now apply alone_helping.
Qed.
Print Assumptions C46_gets_shown_partial.

(** ** C47 *)

(** setLogFile, once in its sync(), gets to where the thread has ended, nothing is left in the output
    buffers, and the next file can be opened; what had reached memory before is then in
    the files, unless the thread had been told to stop before.  The destructor of
    the logger makes the same steps up to here (RuntimeLogger.cc:109-120). *)
Definition stop_ends (t : rt) (goal : rt -> Prop) : Prop :=
  exists ls t', helping ls /\ rt_run ls t = Some t' /\ t_sw t' = SwJoin /\ t_kpc t' = KExit /\ t_flight t' = [] /\ getEncodedBytes (t_en t') = 0 /\
    (forall r u c, exists t'', rt_step (RRestart r u c) t' = Some t'') /\
    (t_sw t <> SwJoin -> goal t').

Definition C47_statement : Prop :=
  forall t, reach orderly t -> t_sw t <> SwNone -> SBS <= t_osize t ->
    stop_ends t (fun t' => forall b j, In b (t_bufs t ++ t_gone t) -> visible (b_ring b) j = true -> (j <= filed t' (b_id b))%nat).

Lemma thread_gfile : forall t t', k_step t = Some t' -> t_gfile t' = t_gfile t.
Proof.
  unfold k_step. intros t t' E.
  assert (OR : forall j l t0 t1, on_ring j l t0 = Some t1 -> t_gfile t1 = t_gfile t0) by (intros j l t0 t1 X; apply on_ring_out in X; destruct X as (b1 & r & _ & _ & ->); reflexivity).
  assert (NG : forall s, t_gfile (notify s) = t_gfile s) by (intros s; unfold notify; destruct (t_waiters s) as [|w ws]; [|destruct (w_switch w)]; reflexivity).
  destruct (t_kpc t) eqn:EK; try discriminate E.
  - apply some_inj in E. now subst t'.
  - apply some_inj in E. subst t'. unfold k_dict. destruct (_ <? _); [destruct (encodeNewDictionaryEntries _ _ _) as ((e & n) & d)|]; reflexivity.
  - destruct (t_kfull t); [apply some_inj in E; now subst t'|]. destruct (t_bufs t); [apply some_inj in E; now subst t'|].
    destruct (on_ring _ _ _) as [t1|] eqn:E1; [|discriminate]. apply some_inj in E. subst t'. rt_cbn. now apply OR in E1.
  - destruct (nth_error _ _) as [b|]; [|discriminate]. destruct (c_pc _); try discriminate E; try (now apply OR in E).
    destruct (0 <? n); [apply some_inj in E; now subst t'|]. destruct (on_ring _ _ _) as [t1|] eqn:E1; [|discriminate].
    apply some_inj in E. subst t'. apply OR in E1. exact E1.
  - destruct (nth_error _ _) as [b|]; [|discriminate]. destruct (c_pc _); try discriminate E. destruct (n =? 0); [apply some_inj in E; now subst t'|].
    unfold k_encode in E. destruct (encodeLogMsgs _ _ _ _ _ _ _) as ((e & read) & cnt). destruct (read =? 0); [apply some_inj in E; now subst t'|].
    destruct (ring_run _ _ _); [|discriminate]. apply some_inj in E. now subst t'.
  - destruct (nth_error _ _) as [b|]; [|discriminate]. destruct (c_pc _); try discriminate E.
    destruct (on_ring _ _ _) as [t1|] eqn:E1; [|discriminate]. apply OR in E1.
    destruct (nth_error _ _) as [b'|]; [|discriminate]. destruct (c_pc _); apply some_inj in E; subst t'; auto.
    unfold k_delete. destruct (remove_at _ _); exact E1.
  - apply some_inj in E. now subst t'.
  - apply some_inj in E. subst t'. unfold k_idle. destruct (_ =? 0); [|reflexivity]. destruct (t_sync t); try reflexivity.
    + destruct (t_outst t); [reflexivity|]. now rewrite NG.
    + now rewrite NG.
  - unfold k_io in E. destruct (t_outst t); [|apply some_inj in E; now subst t']. destruct (t_flight t); [|destruct (t_kfull t); [discriminate|apply some_inj in E; now subst t']].
    apply some_inj in E. subst t'. unfold k_finish_io. destruct (t_sync t); try reflexivity. now rewrite NG.
  - apply some_inj in E. subst t'. unfold k_write. destruct (_ =? 0); [reflexivity|]. destruct (swapBuffer _ _ _). reflexivity.
Qed.

(** Steps of these kinds add to the file, and leave alone that setLogFile is running. *)
Lemma helping_step : forall l t t', l = RThread \/ l = RIoDone 0 \/ l = RStop -> rt_step l t = Some t' ->
  (exists x, t_gfile t' = t_gfile t ++ x) /\ (t_sw t <> SwNone -> t_sw t' <> SwNone).
Proof.
  intros l t t' [-> | [-> | ->]] E; cbn [rt_step] in E.
  - split; [exists []; rewrite app_nil_r; now apply thread_gfile|]. apply thread_files in E. destruct E as (_ & _ & E). unfold w3 in E.
    destruct E as [E | E]; injection E as _ _ E; rewrite E; auto. unfold notify. destruct (t_waiters t) as [|w ws]; [auto|]. destruct (w_switch w); rt_cbn; [discriminate|auto].
  - destruct (nth_error _ _) as [(base & n)|]; [|discriminate]. apply some_inj in E. subst t'. rt_cbn. split; eauto.
  - destruct (t_sw t) eqn:ES; try discriminate E. apply some_inj in E. subst t'. rt_cbn. split; [exists []; now rewrite app_nil_r|discriminate].
Qed.

Lemma helping_run : forall ls t t', helping ls -> rt_run ls t = Some t' -> (exists x, t_gfile t' = t_gfile t ++ x) /\ (t_sw t <> SwNone -> t_sw t' <> SwNone).
Proof.
  induction ls as [|l ls IH]; intros t t' A E; cbn [rt_run] in E; [apply some_inj in E; subst t'; split; [exists []; now rewrite app_nil_r|auto]|].
  inversion A as [|? ? X Y]. subst. destruct (rt_step l t) as [t1|] eqn:E1; [|discriminate]. destruct (helping_step _ _ _ X E1) as ((x & S1) & S2). destruct (IH _ _ Y E) as ((y & S3) & S4).
  split; [|auto]. exists (x ++ y). now rewrite S3, S1, app_assoc.
Qed.

Lemma run_app : forall a b t, rt_run (a ++ b) t = match rt_run a t with Some t' => rt_run b t' | None => None end.
Proof. induction a as [|l a IH]; intros b t; cbn [app rt_run]; [reflexivity|]. destruct (rt_step l t); auto. Qed.

Lemma stopped_ends : forall small t, good small t -> room small t -> flagged t -> t_sw t = SwJoin ->
  exists ls t', alone ls /\ rt_run ls t = Some t' /\ good small t' /\ kept t t' /\ t_kpc t' = KExit /\ t_flight t' = [] /\ getEncodedBytes (t_en t') = 0.
Proof.
  intros small t HG HO (F1 & F2 & _) ES. assert (EX : t_kexit t = true) by now apply F2.
  assert (D : t_kpc t = KExit \/ t_kpc t <> KExit) by (destruct (t_kpc t); (left; reflexivity) || (right; discriminate)). destruct D as [D | D].
  - exists [], t. pose proof HG as (HI & _). inv_split HI. rewrite D in HPc. destruct HPc as (P1 & P2). splits; auto; try constructor; try apply kept_refl.
    destruct HFl as [(HFl & _) | (HFl & _)]; [exact HFl|congruence].
  - destruct (stops small t HG D EX HO) as (t' & ((ls & L1 & L2) & G & K) & (S1 & S2 & S3)). exists ls, t'. splits; auto.
Qed.

Lemma restarts : forall t, SBS <= t_osize t -> t_sw t = SwJoin -> t_kpc t = KExit -> forall r u c, exists t', rt_step (RRestart r u c) t = Some t'.
Proof.
  intros t HO ES EK r u c. cbn [rt_step]. rewrite ES, EK. unfold encoder, insertCheckpoint, e_space. cbn [e_end e_wp].
  replace (e_base (t_en t) + t_osize t - e_base (t_en t) <? 33) with false by (unfold SBS in HO; lia). eauto.
Qed.

Lemma filed_more : forall t t' id, t_golds t' = t_golds t -> (exists x, t_gfile t' = t_gfile t ++ x) -> (filed t id <= filed t' id)%nat.
Proof. intros t t' id E (x & X). unfold filed. rewrite E, X, app_assoc. apply emitted_le. Qed.

Lemma good_stop : forall small (ok : rlabel -> rt -> Prop) t, (forall s, reach ok s -> good small s /\ flagged s) ->
  (forall l s, l = RThread \/ l = RIoDone 0 \/ l = RStop -> ok l s) -> reach ok t -> room small t -> t_sw t <> SwNone ->
  exists ls t', helping ls /\ rt_run ls t = Some t' /\ t_sw t' = SwJoin /\ t_kpc t' = KExit /\ t_flight t' = [] /\ getEncodedBytes (t_en t') = 0 /\
    (forall r u c, exists t'', rt_step (RRestart r u c) t' = Some t'') /\
    t_sites t' = t_sites t /\ (forall ws, vis ws (t_bufs t ++ t_gone t) -> vis ws (t_bufs t' ++ t_gone t')) /\
    (t_sw t <> SwJoin -> forall b j, In b (t_bufs t ++ t_gone t) -> visible (b_ring b) j = true -> (j <= filed t' (b_id b))%nat).
Proof.
  intros small ok t HOK HL R HO ES. destruct (HOK t R) as (HG & HF).
  assert (RO : room small t -> SBS <= t_osize t) by (unfold room; lia).
  assert (D : t_sw t = SwJoin \/ t_sw t <> SwJoin) by (destruct (t_sw t); (left; reflexivity) || (right; discriminate)). destruct D as [D | D].
  - destruct (stopped_ends small t HG HO HF D) as (ls & t' & A & B & G & K & S1 & S2 & S3). apply alone_helping in A.
    assert (SJ : t_sw t' = SwJoin).
    { destruct (HOK t') as (_ & F2 & F3 & _); [eapply helping_reach; eauto|]. apply F3. destruct K as (_ & K & _). rewrite K. now apply HF. }
    exists ls, t'. pose proof (room_kept _ _ _ K HO) as HO'. destruct K as (K1 & _ & _ & _ & _ & K2). splits; auto; [|congruence]. apply restarts; auto. unfold room in HO'. lia.
  - assert (EX : t_kexit t = false) by (destruct (t_kexit t) eqn:E; auto; apply HF in E; contradiction).
    destruct (good_done small t HG HF EX HO) as (l1 & t1 & A1 & B1 & G1 & K1 & D1 & C1 & W1 & _). apply alone_helping in A1.
    assert (R1 : reach ok t1) by (eapply helping_reach; eauto).
    destruct (HOK t1 R1) as (_ & F1 & F2 & F3).
    assert (S1 : t_sw t1 = SwStop).
    { destruct (helping_run _ _ _ A1 B1) as (_ & N). specialize (N ES). destruct (t_sw t1) eqn:E1; auto; [contradiction| |].
      - destruct (F3 eq_refl) as (w & W & _). rewrite W1 in W. destruct W.
      - assert (X : t_kexit t1 = true) by now apply F2. destruct K1 as (_ & K1 & _). congruence. }
    assert (E2 : rt_step RStop t1 = Some (set_kexit true (set_sw SwJoin t1))) by (cbn [rt_step]; now rewrite S1).
    set (t2 := set_kexit true (set_sw SwJoin t1)) in *. assert (R2 : reach ok t2) by (eapply reach_step; eauto).
    destruct (HOK t2 R2) as (G2 & F4). assert (HO2 : room small t2) by exact (room_kept _ _ _ K1 HO).
    destruct (stopped_ends small t2 G2 HO2 F4 eq_refl) as (l2 & t3 & A3 & B3 & G3 & K3 & S3 & S4 & S5). apply alone_helping in A3.
    assert (R3 : reach ok t3) by (eapply helping_reach; eauto). pose proof (room_kept _ _ _ K3 HO2) as HO3. pose proof (helping_run _ _ _ A3 B3) as (GF & _).
    assert (SJ : t_sw t3 = SwJoin) by (destruct (HOK t3 R3) as (_ & _ & F5 & _); apply F5; destruct K3 as (_ & K3 & _); exact K3).
    destruct K1 as (K4 & _ & _ & _ & _ & K5). destruct K3 as (K6 & _ & _ & K8 & _ & K7).
    exists (l1 ++ RStop :: l2), t3. splits; auto.
    + apply Forall_app. split; [exact A1|]. constructor; auto.
    + rewrite run_app, B1. cbn [rt_run]. now rewrite E2.
    + apply restarts; auto. unfold room in HO3. lia.
    + rewrite K6. exact K4.
    + intros _ b j HB V. eapply Nat.le_trans; [apply (C1 b j HB V)|]. apply filed_more; auto.
Qed.

(** Missing from [C47_statement]: smaller output buffers. *)
Theorem C47_stop_ends_partial : forall t, reach orderly t -> t_sw t <> SwNone -> 2 * SBS + 25 <= t_osize t ->
  stop_ends t (fun t' => forall b j, In b (t_bufs t ++ t_gone t) -> visible (b_ring b) j = true -> (j <= filed t' (b_id b))%nat).
Proof.
  intros t R ES HO. destruct (good_stop False orderly t) as (ls & t' & A & B & C & D & E & F & G & _ & _ & H); auto.
  - intros s Rs. split; [now apply orderly_good|now apply orderly_flagged].
  - apply helping_orderly.
  - unfold room, SBS in *. split; [lia|right; lia].
  - exists ls, t'. splits; auto.
Qed.
Print Assumptions C47_stop_ends_partial.

(** The same, decoded, for messages smaller than half a staging buffer. *)
Theorem C47_stop_shown_partial : forall conv text t, reach (normal conv text) t -> t_sw t <> SwNone -> SBS + 25 <= t_osize t ->
  stop_ends t (shown_after conv text t).
Proof.
  intros conv text t R ES HO. destruct (good_stop True (normal conv text) t) as (ls & t' & A & B & C & D & E & F & G & K1 & K2 & H); auto.
  - intros s Rs. split; [eapply normal_good; eauto|]. apply orderly_flagged. eapply reach_weaken; [|exact Rs]. apply normal_orderly.
  - intros. now apply helping_normal.
  - unfold room, SBS in *. split; [lia|now left].
  - exists ls, t'. splits; auto. intros N. eapply shown_there; eauto.
Qed.
Print Assumptions C47_stop_shown_partial.

(** ** Concrete runs

    The output buffers have 2^21 + 25 bytes each. Two threads log, one exits; nothing has been written yet. *)
Definition wide_run (ls : list rlabel) : option rt :=
  match rt_init (fun _ => 0) (2 * SBS + 25) 0 (2 ^ 26) 10 11 (repeat 0 8) with
  | None => None
  | Some t => match rt_run (begin 2) t with None => None | Some t1 => rt_run ls t1 end
  end.

Definition drain_before : list rlabel := log 0 (msg 5 1) ++ log 1 (msg 6 2) ++ exit_thread 1 ++ think 2 ++ log 0 (msg 7 3).
Definition drain_alone : list rlabel := think 20 ++ [RIoDone 0] ++ think 10.

Example C46_instance : alone drain_alone /\
  match wide_run drain_before with
  | Some t =>
    t_file t = [] /\ map b_id (t_bufs t) = [0; 1] /\ map (fun b => visible (b_ring b) (length (r_sent (b_ring b)))) (t_bufs t) = [true; true] /\
    match rt_run drain_alone t with
    | Some t' => read_back (t_file t') = Some [(0, [110; 61; 1]); (0, [110; 61; 3]); (1, [110; 61; 2])] /\ filed t' 0 = 2%nat /\ filed t' 1 = 1%nat /\ map b_id (t_bufs t') = [0]
    | None => False
    end
  | None => False
  end.
Proof.
  split; [|vm_compute; repeat split; reflexivity].
  unfold alone, drain_alone, think. cbn [repeat app]. repeat (constructor; [auto|]). constructor.
Qed.

(** setLogFile() is called then: sync() returns, the thread stops, the file holds all three. *)
Definition stop_helped : list rlabel := think 30 ++ [RIoDone 0] ++ think 10 ++ [RStop] ++ think 6.

Example C47_instance : helping stop_helped /\
  match wide_run (drain_before ++ [RSwitch [(0, 2%nat); (1, 1%nat)]]) with
  | Some t =>
    match rt_run stop_helped t with
    | Some t' => read_back (t_file t') = Some [(0, [110; 61; 1]); (0, [110; 61; 3]); (1, [110; 61; 2])] /\ t_kpc t' = KExit /\ t_sw t' = SwJoin /\ t_waiters t' = [] /\ t_flight t' = []
    | None => False
    end
  | None => False
  end.
Proof.
  split; [|vm_compute; repeat split; reflexivity].
  unfold helping, stop_helped, think. cbn [repeat app]. repeat (constructor; [auto|]). constructor.
Qed.

(** ** Messages too large for the output buffer *)

(** The one buffer holds a message of [size] bytes, and nothing has been taken from it. *)
Definition too_large (size : Z) (t : rt) : Prop :=
  t_osize t < 2 * size + 16 /\
  exists b bs, t_bufs t = [b] /\ b_id b = 0 /\ b_taken b = 0%nat /\ r_sent (b_ring b) = [bs] /\ zlen bs = size /\ s_dead (r_mem (b_ring b)) = false.

Lemma too_large_read : forall size t b bs n e read cnt, inv False t -> t_osize t < 2 * size + 16 -> size <= SBS ->
  In b (t_bufs t) -> b_id b = 0 -> b_taken b = 0%nat -> r_sent (b_ring b) = [bs] -> zlen bs = size -> c_pc (r_c (b_ring b)) = CHave n -> n <> 0 ->
  encodeLogMsgs (t_en t) (s_data (r_mem (b_ring b))) (c_pos (r_c (b_ring b))) (Z.min RELEASE n) (b_id b) (t_kwrap t) (t_shadow t) = (e, read, cnt) -> read = 0.
Proof.
  intros size t b bs n e read cnt HI HO HS IB I0 T0 S1 SZ EC N0 EE. inv_split HI. destruct HBu as (HBu & _).
  assert (HB : buf_ok False (t_sites t) b) by (eapply Forall_forall in HBu; eauto).
  destruct (handed_messages _ _ _ _ HB EC) as (j & Hj & X). cbv zeta in X. destruct X as (X1 & X2 & X3 & _).
  rewrite T0, S1, Nat.sub_0_r in *. cbn [skipn] in *. destruct j as [|[|j]]; [cbn in X2; lia| |cbn in Hj; lia]. cbn [firstn concat] in *. rewrite app_nil_r in X2.
  destruct X1 as (X1 & X4). inversion X1 as [|y ? ms ? (st & Y1 & Y2 & Y3) Y4 Y5 Y6]. subst. cbn [concat] in X4. rewrite app_nil_r in X4.
  destruct (staged_read _ _ _ _ Y2 X4) as (_ & Z2 & _). 
  unfold encodeLogMsgs, encode_with in EE. destruct (encodeBufferExtentStart _ _ _) as [e1|] eqn:E1; [|injection EE; auto].
  assert (SP : e_space e1 <= t_osize t).
  { destruct HEn as (En1 & En2 & _). destruct En1 as (_ & En1 & _ & _). unfold encodeBufferExtentStart in E1. destruct (_ <? 9); [discriminate|].
    rewrite I0 in E1. change (0 <? 16) with true in E1. cbv iota beta zeta in E1. apply some_inj in E1. subst e1. unfold e_space in *. cbn [e_end e_wp]. lia. }
  pose proof (zlen_nonneg _ (staged_bytes st y)).
  destruct (Z.to_nat (Z.min RELEASE (zlen (staged_bytes st y)))) as [|f] eqn:EF; [cbn [encode_loop] in EE|].
  - injection EE as _ EE _. lia.
  - cbn [encode_loop] in EE. destruct (_ <=? 0); [injection EE as _ EE _; lia|]. destruct (negb _); [injection EE as _ EE _; lia|]. destruct (_ && _); [injection EE as _ EE _; lia|].
    rewrite Z2 in EE. replace (e_space e1 <? _) with true in EE; [injection EE as _ EE _; lia|]. symmetry. apply Z.ltb_lt. unfold to_u, SBS in *. rewrite !Z.mod_small; lia.
Qed.

Lemma too_large_on : forall size t j l t', too_large size t -> on_ring j l t = Some t' -> (l = LPeek \/ l = LCheck \/ l = LConsumer) -> too_large size t'.
Proof.
  intros size t j l t' (A & b & bs & C1 & C2 & C3 & C4 & C5 & C6) E L. apply on_ring_out in E. destruct E as (b1 & r & EN & ES & ->). rewrite C1 in EN.
  destruct j as [|[|j]]; try discriminate EN. apply some_inj in EN. subst b1. unfold too_large. rt_cbn. splits; auto. exists (Buf (b_id b) r (b_msgs b) (b_taken b)), bs. rewrite C1. cbn [update b_id b_taken b_ring].
  assert (X : r_sent r = r_sent (b_ring b) /\ r_mem r = r_mem (b_ring b)).
  { unfold ring_step in ES. cbv zeta in ES. destruct L as [-> | [-> | ->]].
    - destruct (c_pc _); try discriminate ES; apply some_inj in ES; subst r; auto.
    - destruct (c_pc _); try discriminate ES. destruct (_ =? 0); [|discriminate]. apply some_inj in ES; subst r; auto.
    - destruct (consumer_step _ _) as [(c' & d)|]; [|discriminate]. apply some_inj in ES. subst r. auto. }
  destruct X as (X1 & X2). rewrite X1, X2. splits; auto.
Qed.

Lemma too_large_like : forall size t t', too_large size t -> t_osize t' = t_osize t -> t_bufs t' = t_bufs t -> too_large size t'.
Proof. intros size t t' (A & C) E1 E2. unfold too_large. rewrite E1, E2. splits; auto. Qed.

Lemma too_large_step : forall size l t t', inv False t -> size <= SBS -> too_large size t -> t_kpc t <> KCheck -> l = RThread \/ l = RIoDone 0 -> rt_step l t = Some t' ->
  too_large size t' /\ t_kpc t' <> KCheck.
Proof.
  intros size l t t' HI HS H NK L E.
  assert (NN : forall u, too_large size u -> too_large size (notify u)).
  { intros u X. unfold notify. destruct (t_waiters u) as [|w ws]; [|destruct (w_switch w)]; auto; eapply too_large_like; eauto. }
  assert (EQ : forall u, t_osize u = t_osize t -> t_bufs u = t_bufs t -> t_kpc u <> KCheck -> too_large size u /\ t_kpc u <> KCheck) by (intros; split; auto; eapply too_large_like; eauto).
  pose proof H as (A & b & bs & C1 & C2 & C3 & C4 & C5 & C6).
  destruct L as [-> | ->]; cbn [rt_step] in E; [|destruct (nth_error _ _) as [(base & n)|]; [|discriminate]; apply some_inj in E; subst t'; now apply EQ].
  unfold k_step in E. destruct (t_kpc t) eqn:EP; try discriminate E; try congruence.
  - apply some_inj in E. subst t'. apply EQ; auto. rt_cbn. destruct (_ || _); discriminate.
  - apply some_inj in E. subst t'. unfold k_dict in *. destruct (_ <? _); [destruct (encodeNewDictionaryEntries _ _ _) as ((e & n) & d)|]; apply EQ; auto; discriminate.
  - destruct (t_kfull t); [apply some_inj in E; subst t'; apply EQ; auto; discriminate|]. rewrite C1 in E.
    destruct (on_ring _ _ _) as [t1|] eqn:E1; [|discriminate]. apply some_inj in E. subst t'. apply (too_large_on size) in E1; auto. split; [|discriminate]. eapply too_large_like; eauto.
  - destruct (nth_error _ _) as [b0|] eqn:EN; [|discriminate]. assert (b0 = b) by (rewrite C1 in EN; destruct (Z.to_nat (t_ki t)) as [|[|?]]; try discriminate EN; apply some_inj in EN; congruence). subst b0.
    assert (OK : forall t1 l0, on_ring (Z.to_nat (t_ki t)) l0 t = Some t1 -> t_kpc t1 = t_kpc t) by (intros t1 l0 X; apply on_ring_out in X; destruct X as (b1 & r & _ & _ & ->); reflexivity).
    destruct (c_pc _); try discriminate E; try (pose proof (OK _ _ E); split; [eapply too_large_on; eauto|congruence]).
    destruct (0 <? n); [apply some_inj in E; subst t'; apply EQ; auto; discriminate|].
    destruct (on_ring _ _ _) as [t1|] eqn:E1; [|discriminate]. apply some_inj in E. subst t'. apply (too_large_on size) in E1; auto.
    rewrite C6. split; [|discriminate]. eapply too_large_like; eauto.
  - destruct (nth_error _ _) as [b0|] eqn:EN; [|discriminate]. assert (b0 = b) by (rewrite C1 in EN; destruct (Z.to_nat (t_ki t)) as [|[|?]]; try discriminate EN; apply some_inj in EN; congruence). subst b0.
    destruct (c_pc _) eqn:EC; try discriminate E. destruct (n =? 0) eqn:E0; [apply some_inj in E; subst t'; apply EQ; auto; discriminate|]. apply Z.eqb_neq in E0.
    unfold k_encode in E. destruct (encodeLogMsgs _ _ _ _ _ _ _) as ((e & read) & cnt) eqn:EE. apply (too_large_read size t b bs) in EE; auto; [|rewrite C1; now left]. subst read.
    cbn in E. apply some_inj in E. subst t'. apply EQ; auto. discriminate.
  - apply some_inj in E. subst t'. apply EQ; auto. unfold k_next. rt_cbn. destruct (_ =? _); discriminate.
  - apply some_inj in E. subst t'. unfold k_idle. destruct (_ =? 0); [|apply EQ; auto; discriminate]. destruct (t_sync t); try (apply EQ; auto; discriminate).
    + destruct (t_outst t); [apply EQ; auto; discriminate|]. rewrite notify_kpc. split; [|discriminate]. apply NN. eapply too_large_like; eauto.
    + rewrite notify_kpc. split; [|discriminate]. apply NN. eapply too_large_like; eauto.
  - unfold k_io in E. destruct (t_outst t); [|apply some_inj in E; subst t'; apply EQ; auto; discriminate]. destruct (t_flight t); [|destruct (t_kfull t); [discriminate|apply some_inj in E; subst t'; apply EQ; auto; discriminate]].
    apply some_inj in E. subst t'. unfold k_finish_io. destruct (t_sync t); try (apply EQ; auto; discriminate). rewrite notify_kpc. split; [|discriminate]. apply NN. eapply too_large_like; eauto.
  - apply some_inj in E. subst t'. unfold k_write in *. destruct (_ =? 0); [apply EQ; auto; discriminate|]. destruct (swapBuffer _ _ _). apply EQ; auto. discriminate.
Qed.

(** However long the thread runs, no message gets into the file. *)
Lemma too_large_stays : forall size ls t t', inv False t -> size <= SBS -> too_large size t -> t_kpc t <> KCheck -> alone ls -> rt_run ls t = Some t' -> filed t' 0 = 0%nat.
Proof.
  induction ls as [|l ls IH]; intros t t' HI HS H NK L E; cbn [rt_run] in E.
  - apply some_inj in E. subst t'. destruct H as (_ & b & bs & C1 & C2 & C3 & _). inv_split HI. destruct HAc as (A1 & _ & _). rewrite C1 in A1. apply Forall_inv in A1 as X. unfold acc_ok in X.
    rewrite C2, C3 in X. cbn [firstn] in X. unfold everything, sect in X. unfold filed. rewrite app_assoc, emitted_app in X. apply app_eq_nil in X. destruct X as (X & _). now rewrite X.
  - inversion L as [|? ? L1 L2]. subst. destruct (rt_step l t) as [t1|] eqn:E1; [|discriminate]. destruct (too_large_step size l t t1 HI HS H NK L1 E1).
    apply (IH t1); auto. eapply step_inv_rt; [exact HI| |exact E1]. destruct L1; subst l; exact I.
Qed.

(** *** Such a state is reached *)

Lemma writes_out : forall bs j r, p_pc (r_p r) = PWrite bs 0 -> (j <= length bs)%nat -> Forall (fun w => exists a v, w = WData a v) (p_sb (r_p r)) ->
  exists r', ring_run SBS (repeat LProducer j) r = Some r' /\ p_pc (r_p r') = PWrite bs j /\ p_pos (r_p r') = p_pos (r_p r) /\
    Forall (fun w => exists a v, w = WData a v) (p_sb (r_p r')) /\ r_mem r' = r_mem r /\ r_c r' = r_c r /\ r_sent r' = r_sent r /\ r_got r' = r_got r.
Proof.
  intros bs. induction j as [|j IH]; intros r HP HJ HF; [exists r; splits; auto|].
  destruct (IH r HP ltac:(lia) HF) as (r1 & A1 & A2 & A3 & A4 & A5 & A6 & A7 & A8). destruct (nth_error bs j) as [v|] eqn:EV; [|apply nth_error_None in EV; lia].
  eexists. split.
  - replace (S j) with (j + 1)%nat by lia. rewrite repeat_app, RingProofs.run_app, A1. cbn [repeat ring_run]. unfold ring_step, producer_step. cbv zeta. rewrite A2, EV. cbn [r_mem r_p r_c r_sent r_got]. reflexivity.
  - cbn [r_mem r_p r_c r_sent r_got p_pc p_pos p_sb]. rewrite app_nil_r. splits; auto. apply Forall_app. split; auto. constructor; eauto.
Qed.

Lemma commits_out : forall sb r pos, p_sb (r_p r) = sb ++ [WPos pos] -> Forall (fun w => exists a v, w = WData a v) sb ->
  exists r', ring_run SBS (repeat LCommitP (S (length sb))) r = Some r' /\ s_pos (r_mem r') = pos /\ s_dead (r_mem r') = s_dead (r_mem r) /\
    r_c r' = r_c r /\ r_sent r' = r_sent r /\ r_got r' = r_got r.
Proof.
  induction sb as [|w sb IH]; intros r pos HS HF.
  - eexists. split; [cbn [length repeat ring_run]; unfold ring_step; cbv zeta; rewrite HS; reflexivity|]. cbn [r_mem r_c r_sent r_got commit s_pos s_dead]. splits; auto.
  - inversion HF as [|? ? (a & v & ->) HF']. subst.
    assert (E : exists r1, ring_step SBS LCommitP r = Some r1 /\ p_sb (r_p r1) = sb ++ [WPos pos] /\ s_dead (r_mem r1) = s_dead (r_mem r) /\ r_c r1 = r_c r /\ r_sent r1 = r_sent r /\ r_got r1 = r_got r).
    { eexists. split; [unfold ring_step; cbv zeta; rewrite HS; reflexivity|]. cbn [r_mem r_p r_c r_sent r_got p_sb commit s_dead]. splits; auto. }
    destruct E as (r1 & E1 & E2 & E3 & E4 & E5 & E6). destruct (IH r1 pos E2 HF') as (r' & X1 & X2 & X3 & X4 & X5 & X6). exists r'.
    split; [|splits; congruence]. cbn [length]. change (repeat LCommitP (S (S (length sb)))) with (LCommitP :: repeat LCommitP (S (length sb))). cbn [ring_run]. rewrite E1. exact X1.
Qed.

Lemma log_out : forall bs, zlen bs < SBS -> exists n m r, ring_run SBS (LLog bs :: repeat LProducer n ++ repeat LCommitP m) (new_ring SBS) = Some r /\
  s_pos (r_mem r) = zlen bs /\ s_dead (r_mem r) = false /\ c_pos (r_c r) = 0 /\ r_sent r = [bs] /\ r_got r = [].
Proof.
  intros bs HS. pose proof (zlen_nonneg _ bs) as Z0.
  assert (E0 : exists r0, ring_run SBS [LLog bs; LProducer] (new_ring SBS) = Some r0 /\ p_pc (r_p r0) = PWrite bs 0 /\ p_pos (r_p r0) = 0 /\ p_sb (r_p r0) = [] /\
    s_dead (r_mem r0) = false /\ c_pos (r_c r0) = 0 /\ r_sent r0 = [] /\ r_got r0 = []).
  { eexists. split.
    - cbn [ring_run]. unfold ring_step, producer_step, new_ring. cbv zeta. cbn [r_p r_c r_mem r_sent r_got r_cons p_pc p_min p_pos p_sb].
      replace (zlen bs <? SBS) with true by lia. reflexivity.
    - cbn [r_p r_c r_mem r_sent r_got p_pc p_pos p_sb s_dead c_pos app]. splits; auto. }
  destruct E0 as (r0 & A0 & A1 & A2 & A3 & A4 & A5 & A6 & A7).
  destruct (writes_out bs (length bs) r0 A1 ltac:(lia)) as (r1 & B0 & B1 & B2 & B3 & B4 & B5 & B6 & B7); [rewrite A3; constructor|].
  assert (E2 : exists r2, ring_step SBS LProducer r1 = Some r2 /\ p_sb (r_p r2) = p_sb (r_p r1) ++ [WPos (zlen bs)] /\ r_mem r2 = r_mem r1 /\ r_c r2 = r_c r1 /\ r_sent r2 = [bs] /\ r_got r2 = []).
  { eexists. split.
    - unfold ring_step, producer_step. cbv zeta. rewrite B1. replace (nth_error bs (length bs)) with (@None Z) by (symmetry; now apply nth_error_None). reflexivity.
    - cbn [r_mem r_p r_c r_sent r_got p_sb]. rewrite B2, A2, B6, A6, B7, A7. splits; auto. }
  destruct E2 as (r2 & C0 & C1 & C2 & C3 & C4 & C5). destruct (commits_out _ r2 _ C1 B3) as (r3 & D0 & D1 & D2 & D3 & D4 & D5).
  exists (1 + (length bs + 1))%nat, (S (length (p_sb (r_p r1)))), r3. split; [|splits; congruence].
  change (LLog bs :: repeat LProducer (1 + (length bs + 1)) ++ repeat LCommitP (S (length (p_sb (r_p r1))))) with
    ([LLog bs; LProducer] ++ repeat LProducer (length bs + 1) ++ repeat LCommitP (S (length (p_sb (r_p r1))))).
  rewrite RingProofs.run_app, A0. rewrite repeat_app, <- app_assoc, RingProofs.run_app, B0. cbn [repeat app ring_run]. rewrite C0. exact D0.
Qed.

Lemma lift_run : forall ls id t r r' ms k, Forall (fun l => l = LProducer \/ l = LCommitP) ls -> t_bufs t = [Buf id r ms k] -> ring_run SBS ls r = Some r' ->
  rt_run (map (fun l => match l with LProducer => RProducer 0 | _ => RCommitP 0 end) ls) t = Some (set_bufs [Buf id r' ms k] t).
Proof.
  induction ls as [|l ls IH]; intros id t r r' ms k HF HB E; cbn [ring_run map rt_run] in *.
  - apply some_inj in E. subst r'. destruct t. cbn in HB. subst. reflexivity.
  - inversion HF as [|? ? X HF']. subst. destruct (ring_step SBS l r) as [r1|] eqn:E1; [|discriminate].
    assert (S1 : rt_step (match l with LProducer => RProducer 0 | _ => RCommitP 0 end) t = Some (set_bufs [Buf id r1 ms k] t)).
    { destruct X; subst l; cbn [rt_step]; unfold on_ring; rewrite HB; cbn [nth_error b_ring b_id b_msgs b_taken update]; rewrite E1; reflexivity. }
    rewrite S1. rewrite (IH id (set_bufs [Buf id r1 ms k] t) r1 r' ms k HF' eq_refl E). reflexivity.
Qed.

(** Two statements are registered and a thread has a buffer; the output buffers are as large as a staging buffer. *)
Lemma large_state : forall k, 0 <= k -> k + 20 < SBS -> exists t b, reach orderly t /\ t_kexit t = false /\ t_kpc t = KTop /\ t_osize t = SBS /\ t_bufs t = [b] /\ b_id b = 0 /\ b_taken b = 0%nat /\
  r_sent (b_ring b) = [staged_bytes str_site (str_msg k)] /\ s_dead (r_mem (b_ring b)) = false /\ visible (b_ring b) 1 = true /\ t_sw t = SwNone /\ t_gone t = [] /\
  c_pos (r_c (b_ring b)) = 0 /\ s_pos (r_mem (b_ring b)) = zlen (staged_bytes str_site (str_msg k)) /\ t_waiters t = [].
Proof.
  intros k K0 K1. destruct (str_staged_ok k) as (SO & SZ); [unfold SBS in *; lia|]. destruct (log_out (staged_bytes str_site (str_msg k))) as (n & m & r & L0 & L1 & L2 & L3 & L4 & L5); [lia|].
  assert (E0 : exists t0, rt_init (fun _ => 0) SBS 0 SBS 10 11 (repeat 0 8) = Some t0 /\ t_kexit t0 = false /\ t_kpc t0 = KTop /\ t_osize t0 = SBS /\ t_bufs t0 = [] /\ t_gone t0 = [] /\ t_sites t0 = [] /\
    t_pend t0 = [] /\ t_nextid t0 = 0 /\ t_sw t0 = SwNone /\ t_waiters t0 = []).
  { eexists. split; [reflexivity|]. rt_cbn. splits; auto. }
  destruct E0 as (t0 & E0 & A1 & A2 & A3 & A4 & A5 & A6 & A7 & A8 & A9 & A10).
  assert (R0 : reach orderly t0).
  { eapply (reach_init orderly (fun _ => 0) SBS 0 SBS); [| | | |exact E0]; try (unfold SBS; lia).
    - intro a. unfold is_byte. lia.
    - unfold times_ok. splits; try lia; try reflexivity. repeat (constructor; [unfold is_byte; lia|]). constructor. }
  assert (SI : site_ok str_site).
  { unfold site_ok, str_site. cbn [si_severity si_line si_file si_fmt]. splits; try lia; try (vm_compute; reflexivity);
      repeat (constructor; [unfold nonzero_byte; vm_compute; split; reflexivity|]); constructor. }
  assert (R1 : reach orderly (set_sites [str_site] t0)).
  { eapply (reach_step _ (RRegister str_site)); [exact R0| |cbn [rt_step]; now rewrite A6]. split; [|discriminate]. cbn [proper]. rewrite A6. split; [exact SI|reflexivity]. }
  assert (R2 : reach orderly (set_sites [str_site; str_site] t0)).
  { eapply (reach_step _ (RRegister str_site)); [exact R1| |reflexivity]. split; [|discriminate]. cbn [proper]. rt_cbn. split; [exact SI|reflexivity]. }
  assert (R3 : reach orderly (set_pend [0] (set_nextid 1 (set_sites [str_site; str_site] t0)))).
  { eapply (reach_step _ RAlloc); [exact R2| |cbn [rt_step]; rt_cbn; rewrite A7, A8; reflexivity]. split; [|discriminate]. cbn [proper]. rt_cbn. rewrite A8. lia. }
  set (t4 := set_pend [] (set_bufs [Buf 0 (new_ring SBS) [] 0] (set_pend [0] (set_nextid 1 (set_sites [str_site; str_site] t0))))).
  assert (R4 : reach orderly t4).
  { eapply (reach_step _ (RPush 0)); [exact R3| |cbn [rt_step]; rt_cbn; cbn [nth_error]; rewrite A4; reflexivity]. split; [exact I|discriminate]. }
  cbn [ring_run] in L0. destruct (ring_step SBS (LLog _) _) as [r1|] eqn:E1; [|discriminate].
  assert (R5 : reach orderly (set_bufs [Buf 0 r1 [str_msg k] 0] t4)).
  { eapply (reach_step _ (RLog 0 (str_msg k))); [exact R4| |].
    - split; [|discriminate]. cbn [proper]. intros st Hst. change (nth_error (t_sites t4) (Z.to_nat (sm_id (str_msg k)))) with (Some str_site) in Hst. apply some_inj in Hst. now subst st.
    - cbn [rt_step]. change (nth_error (t_sites t4) (Z.to_nat (sm_id (str_msg k)))) with (Some str_site). unfold t4 at 1. rt_cbn. cbn [nth_error b_ring]. rewrite E1. reflexivity. }
  assert (HF : Forall (fun l => l = LProducer \/ l = LCommitP) (repeat LProducer n ++ repeat LCommitP m)).
  { apply Forall_app. split; apply Forall_forall; intros l Hl; apply repeat_spec in Hl; auto. }
  pose proof (lift_run _ 0 (set_bufs [Buf 0 r1 [str_msg k] 0] t4) r1 r [str_msg k] 0%nat HF eq_refl L0) as E6.
  eexists. exists (Buf 0 r [str_msg k] 0). split.
  { eapply run_reach; [exact R5| |exact E6|].
    - apply forallb_forall. intros l Hl. apply in_map_iff in Hl. destruct Hl as (l0 & <- & _). destruct l0; reflexivity.
    - intros l st Hl _ _. apply in_map_iff in Hl. destruct Hl as (l0 & <- & _). destruct l0; (split; [exact I|discriminate]). }
  unfold t4. rt_cbn. cbn [b_ring b_id b_taken]. splits; auto.
  unfold visible, visible_bytes. rewrite L1, L3, L4, L5. cbn [length firstn concat]. rewrite app_nil_r, zlen_nil. replace (zlen (staged_bytes str_site (str_msg k)) <? 0) with false by lia.
  apply andb_true_iff. split; [reflexivity|]. apply Z.leb_le. lia.
Qed.

(** With output buffers as large as the staging buffers (Config.h:45-47 admits that), a string of 600000
    characters is never written, and each pass of the thread adds a header to the file. *)
Theorem C46_statement_refuted : ~ C46_statement.
Proof.
  intro H. destruct (large_state 600000) as (t & b & R & EX & EK & EO & EB & B1 & B2 & B3 & B4 & B5 & _); [lia|unfold SBS; lia|].
  destruct (str_staged_ok 600000) as (_ & SZ); [lia|].
  destruct (H t R EX) as (ls & t' & A & B & C & _); [rewrite EO; lia|]. specialize (C b 1%nat). rewrite EB in C. specialize (C (or_introl eq_refl) B5). rewrite B1 in C.
  assert (Z : filed t' 0 = 0%nat); [|lia].
  apply (too_large_stays 600020 ls t t'); auto; [now apply orderly_inv|unfold SBS; lia| |congruence].
  split; [rewrite EO; unfold SBS; lia|]. exists b, (staged_bytes str_site (str_msg 600000)). splits; auto.
Qed.
Print Assumptions C46_statement_refuted.

(** *** sync() and setLogFile() never return then *)

Definition hangs (size : Z) (w : waiter) (t : rt) : Prop :=
  inv False t /\ inv_scan t /\ inv_live t /\ 9 < t_osize t < 2 * size + 16 /\ 0 < size <= SBS /\ t_sync t = SYNC_REQUESTED /\ t_waiters t = [w] /\ t_sw t = SwSync /\
  exists b bs, t_bufs t = [b] /\ b_id b = 0 /\ b_taken b = 0%nat /\ r_sent (b_ring b) = [bs] /\ zlen bs = size /\ s_dead (r_mem (b_ring b)) = false /\
    c_pos (r_c (b_ring b)) = 0 /\ s_pos (r_mem (b_ring b)) = size /\
    match t_kpc t with
    | KPeek => c_pc (r_c (b_ring b)) = CPeek size \/ c_pc (r_c (b_ring b)) = CHave size
    | KEnc => c_pc (r_c (b_ring b)) = CHave size
    | KNext | KIdle => 0 < encoded t
    | KCheck => False
    | _ => True
    end.

Lemma hangs_step : forall size w l t t', hangs size w t -> l = RThread \/ l = RIoDone 0 \/ l = RStop -> rt_step l t = Some t' -> hangs size w t'.
Proof.
  intros size w l t t' (HI & HSc & HLv & HO & HS & HY & HW & HX & b & bs & C1 & C2 & C3 & C4 & C5 & C6 & C7 & C8 & HK) L E.
  assert (G : inv False t' /\ inv_scan t' /\ inv_live t').
  { splits.
    - eapply step_inv_rt; [exact HI| |exact E]. destruct L as [-> | [-> | ->]]; exact I.
    - eapply step_scan; eauto.
    - eapply step_live; eauto. }
  destruct G as (G1 & G2 & G3).
  assert (EQ : t_osize t' = t_osize t -> t_bufs t' = t_bufs t -> t_sync t' = t_sync t -> t_waiters t' = t_waiters t -> t_sw t' = t_sw t ->
    match t_kpc t' with
    | KPeek => c_pc (r_c (b_ring b)) = CPeek size \/ c_pc (r_c (b_ring b)) = CHave size
    | KEnc => c_pc (r_c (b_ring b)) = CHave size
    | KNext | KIdle => 0 < encoded t'
    | KCheck => False
    | _ => True
    end -> hangs size w t').
  { intros X1 X2 X3 X4 X5 X6. unfold hangs. rewrite X1, X2, X3, X4, X5. splits; auto; try lia. exists b, bs. splits; auto. }
  assert (N0 : forall b0, nth_error (t_bufs t) (Z.to_nat (t_ki t)) = Some b0 -> b0 = b /\ Z.to_nat (t_ki t) = 0%nat).
  { intros b0 X. rewrite C1 in X. destruct (Z.to_nat (t_ki t)) as [|[|?]]; try discriminate X. apply some_inj in X. auto. }
  destruct L as [-> | [-> | ->]]; cbn [rt_step] in E.
  2: { destruct (nth_error _ _) as [(base & n)|]; [|discriminate]. apply some_inj in E. subst t'. apply EQ; auto. }
  2: { rewrite HX in E. discriminate. }
  unfold k_step in E. destruct (t_kpc t) eqn:EP; try discriminate E; try tauto.
  - apply some_inj in E. subst t'. apply EQ; auto. rt_cbn. destruct (_ || _); exact I.
  - apply some_inj in E. subst t'. unfold k_dict in *. destruct (_ <? _); [destruct (encodeNewDictionaryEntries _ _ _) as ((e & n) & d)|]; apply EQ; auto; try exact I.
  - destruct (t_kfull t) eqn:EF.
    { apply some_inj in E. subst t'. apply EQ; auto. rt_cbn. destruct HLv as (HLv & _). exact (HLv EF). }
    rewrite C1 in E. destruct (on_ring _ _ _) as [t1|] eqn:E1; [|discriminate]. apply some_inj in E. subst t'. apply on_ring_out in E1. destruct E1 as (b1 & r & EN & ES & ->).
    destruct (N0 _ EN) as (-> & K0). rewrite K0 in *. unfold hangs. rt_cbn. splits; auto; try lia. rewrite C1. cbn [update]. exists (Buf (b_id b) r (b_msgs b) (b_taken b)), bs. cbn [b_ring b_id b_taken].
    unfold ring_step in ES. cbv zeta in ES. destruct (c_pc _); try discriminate ES; apply some_inj in ES; subst r; cbn [r_sent r_mem r_c c_pos c_pc]; splits; auto; left; congruence.
  - destruct (nth_error _ _) as [b0|] eqn:EN; [|discriminate]. destruct (N0 _ eq_refl) as (-> & K0). destruct HK as [HK | HK]; rewrite HK in E.
    + apply on_ring_out in E. destruct E as (b1 & r & EN1 & ES & ->). rewrite K0 in *. rewrite C1 in EN1. apply some_inj in EN1. subst b1. unfold hangs. rt_cbn. splits; auto; try lia.
      rewrite C1. cbn [update]. exists (Buf (b_id b) r (b_msgs b) (b_taken b)), bs. cbn [b_ring b_id b_taken]. unfold ring_step, consumer_step in ES. cbv zeta in ES. rewrite HK, C7 in ES.
      replace (size <? 0) with false in ES by lia. apply some_inj in ES. subst r. cbn [r_sent r_mem r_c c_pos c_pc]. splits; auto. rewrite EP. right. f_equal. rewrite Z.sub_0_r. unfold to_u, SBS in *. apply Z.mod_small. lia.
    + replace (0 <? size) with true in E by lia. apply some_inj in E. subst t'. apply EQ; auto.
  - destruct (nth_error _ _) as [b0|] eqn:EN; [|discriminate]. destruct (N0 _ eq_refl) as (-> & K0). rewrite HK in E. destruct (size =? 0) eqn:E0; [lia|].
    unfold k_encode in E. destruct (encodeLogMsgs _ _ _ _ _ _ _) as ((e & read) & cnt) eqn:EE. pose proof EE as EE'. apply (too_large_read size t b bs) in EE; auto; try lia; [|rewrite C1; now left]. subst read.
    cbn in E. apply some_inj in E. subst t'. apply EQ; auto. rt_cbn. unfold encoded. rt_cbn.
    assert (BO : buf_ok False (t_sites t) b) by (eapply buf_at; eauto). inv_split HI. destruct HKn as (_ & _ & _ & _ & K5). rewrite K5 in EE'. destruct HEn as (En1 & En2 & En3).
    destruct (buf_encode False (t_sites t) (Z.to_nat (t_nextp t)) b size (t_en t) (t_kwrap t) e 0 cnt BO HK) as (_ & _ & _ & _ & D); auto; try lia.
    destruct En1 as (_ & En1 & En4 & _). unfold getEncodedBytes. destruct D as [(-> & _ & D) | (ws & _ & _ & D1 & D2 & _)].
    + unfold e_space in D. lia.
    + rewrite D1, D2. unfold extent_bytes. rewrite !zlen_app, le_bytes_zlen. change (zlen [2 + 4 * _ + _]) with 1. pose proof (zlen_nonneg _ (wmsgs_bytes 0 ws)). pose proof (zlen_nonneg _ (tid_bytes (b_id b))). lia.
  - apply some_inj in E. subst t'. apply EQ; auto. unfold k_next in *. rt_cbn. destruct (to_u 64 (t_ki t + 1) mod zlen (t_bufs t) =? t_klast t); [exact HK|exact I].
  - apply some_inj in E. subst t'. unfold k_idle in *. replace (encoded t =? 0) with false in * by lia. apply EQ; auto; try exact I.
  - unfold k_io in E. destruct (t_outst t); [|apply some_inj in E; subst t'; apply EQ; auto; try exact I]. destruct (t_flight t); [|destruct (t_kfull t); [discriminate|apply some_inj in E; subst t'; apply EQ; auto; try exact I]].
    apply some_inj in E. subst t'. unfold k_finish_io in *. rewrite HY in *. apply EQ; auto; try exact I.
  - apply some_inj in E. subst t'. unfold k_write in *. destruct (_ =? 0); [apply EQ; auto; try exact I|]. destruct (swapBuffer _ _ _). apply EQ; auto; try exact I.
Qed.

Lemma hangs_run : forall size w ls t t', hangs size w t -> helping ls -> rt_run ls t = Some t' -> hangs size w t'.
Proof.
  induction ls as [|l ls IH]; intros t t' H A E; cbn [rt_run] in E.
  - apply some_inj in E. now subst t'.
  - destruct (rt_step l t) as [t1|] eqn:E1; [|discriminate]. eapply IH; [|exact (Forall_inv_tail A)|exact E]. eapply hangs_step; [exact H|exact (Forall_inv A)|exact E1].
Qed.

(** A thread has logged one message (its statement's string is 600000 bytes),
    the output buffer is as small as Config.h allows (RuntimeLogger and Config.h:45-47
    only demand STAGING_BUFFER_SIZE bytes), and setLogFile() is called: its sync()
    never returns, whatever the compression thread and the disk do. *)
Theorem C47_never_returns :
  exists t t1, reach orderly t /\ t_kexit t = false /\ t_osize t = SBS /\ t_waiters t = [] /\
    rt_step (RSwitch [(0, 1%nat)]) t = Some t1 /\ reach orderly t1 /\
    forall ls t', helping ls -> rt_run ls t1 = Some t' -> t_waiters t' = [Waiter [(0, 1%nat)] true] /\ t_sw t' = SwSync.
Proof.
  destruct (large_state 600000) as (t & b & R & EX & EK & EO & EB & B1 & B2 & B3 & B4 & B5 & B6 & B7 & B8 & B9 & B10); [lia|unfold SBS; lia|].
  destruct (str_staged_ok 600000) as (_ & SZ); [lia|]. set (bs := staged_bytes str_site (str_msg 600000)) in *. clearbody bs.
  assert (E1 : rt_step (RSwitch [(0, 1%nat)]) t = Some (set_sync SYNC_REQUESTED (set_sw SwSync (set_waiters (t_waiters t ++ [Waiter [(0, 1%nat)] true]) t)))).
  { cbn [rt_step]. rewrite B6. unfold snap_ok. rewrite EB, B7. cbn [forallb existsb app fst snd]. rewrite B1, B5. reflexivity. }
  exists t. eexists. assert (R1 : reach orderly (set_sync SYNC_REQUESTED (set_sw SwSync (set_waiters (t_waiters t ++ [Waiter [(0, 1%nat)] true]) t)))).
  { eapply reach_step; [exact R| |exact E1]. split; [exact I|discriminate]. }
  split; [exact R|]. split; [exact EX|]. split; [exact EO|]. split; [exact B10|]. split; [exact E1|]. split; [exact R1|]. intros ls t' A E.
  assert (H : hangs 600020 (Waiter [(0, 1%nat)] true) t').
  { eapply hangs_run; [|exact A|exact E]. pose proof (orderly_inv _ R1) as I1. pose proof (orderly_scan _ R1) as I2. pose proof (orderly_live _ R1) as I3.
    split; [exact I1|]. split; [exact I2|]. split; [exact I3|]. clear I1 I2 I3. rt_cbn. rewrite B10. splits; auto.
    - rewrite EO. unfold SBS. lia.
    - rewrite EO. unfold SBS. lia.
    - lia.
    - unfold SBS. lia.
    - exists b, bs. rewrite EK. splits; auto; try lia. }
  destruct H as (_ & _ & _ & _ & _ & _ & H1 & H2 & _). auto.
Qed.
Print Assumptions C47_never_returns.

Theorem C47_statement_refuted : ~ C47_statement.
Proof.
  intro H. destruct C47_never_returns as (t & t1 & R & _ & O & _ & E & R1 & F). cbn [rt_step] in E. destruct (t_sw t); try discriminate. destruct (snap_ok t _); [|discriminate]. apply some_inj in E.
  destruct (H t1 R1) as (ls & t' & A & B & C & _).
  - subst t1. rt_cbn. discriminate.
  - subst t1. rt_cbn. lia.
  - destruct (F ls t' A B). congruence.
Qed.
Print Assumptions C47_statement_refuted.
