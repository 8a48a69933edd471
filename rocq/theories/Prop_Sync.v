(** C30: sync().  C33: setLogFile(). *)
From Verif Require Import Base BaseProofs FrontFmt Args Printf ArgsProofs Prop_Message DecodeProofs Encoder Wire EncoderProofs Prop_Encoder Decoder FileSpec DecoderProofs Prop_Decoder
  Ring RingProofs Prop_Ring Runtime RtRing RtBuf RtInv RtSafe RtFile RtScan RtSync Prop_Runtime RtRuns Prop_RuntimeRuns Prop_Scan.

Ltac Zify.zify_post_hook ::= Z.div_mod_to_equations.

(** ** C30 *)

(** [t_returned]: for each call of sync() that has returned, some messages that had reached
    memory when it was made: thread and number of its messages.  They are found in the files. *)
Definition durable (conv : rconv -> list Z) (text : smsg -> list Z) (t : rt) : Prop :=
  exists lss, Forall2 (decodes conv) (t_olds t ++ [t_file t]) lss /\
    forall snap id j, In snap (t_returned t) -> In (id, j) snap ->
      (j <= length (concat (map (tid_lines id) lss)))%nat /\
      forall b, In b (t_bufs t ++ t_gone t) -> b_id b = id ->
        Forall2 (shows (t_sites t) text id) (firstn j (b_msgs b)) (firstn j (concat (map (tid_lines id) lss))).

Definition C30_when (ok : rlabel -> rt -> Prop) : Prop :=
  forall conv text t, reach (fun l t => normal conv text l t /\ ok l t) t -> durable conv text t.

Definition C30_statement : Prop := C30_when (fun _ _ => True).

(** No wait on the condition variable ends before it is notified. *)
Definition no_spurious (l : rlabel) (t : rt) : Prop := l <> RSpurious.

(** No scan of the second pass starts at a buffer that is deleted in it. *)
Definition no_skip (l : rlabel) (t : rt) : Prop :=
  l = RThread -> t_kpc t = KIdle -> t_sync t = PERFORMING_SECOND_PASS -> t_skip t = false.

Lemma reach_weaken : forall (ok ok' : rlabel -> rt -> Prop) t, (forall l t, ok l t -> ok' l t) -> reach ok t -> reach ok' t.
Proof. intros ok ok' t H R. induction R; [eapply reach_init; eauto|eapply reach_step; eauto]. Qed.

Lemma normal_orderly : forall conv text l t, normal conv text l t -> orderly l t.
Proof. intros conv text l t (A & B & _). split; auto. Qed.

Definition quiet_sync conv text (l : rlabel) (t : rt) : Prop := normal conv text l t /\ no_spurious l t /\ no_skip l t.

Lemma quiet_inv_sync : forall conv text t, reach (quiet_sync conv text) t -> inv_sync t.
Proof.
  intros conv text t R. induction R as [m size b1 b2 r u c t H0 H1 H2 H3 E|l t t' R IH HO E]; [eapply init_sync; eauto|].
  destruct HO as (H1 & H2 & H3).
  assert (RN : reach (normal conv text) t) by (eapply reach_weaken; [|exact R]; intros ? ? (X & _); exact X).
  apply (step_sync True l t t'); auto.
  - eapply normal_inv; eauto.
  - apply orderly_scan. eapply reach_weaken; [|exact RN]. apply normal_orderly.
  - destruct H1 as (_ & H1 & _). unfold uninterrupted, no_spurious, no_skip in *. destruct l; cbn [careful]; auto.
Qed.

Lemma Forall2_firstn : forall A B (R : A -> B -> Prop) k l m, Forall2 R l m -> Forall2 R (firstn k l) (firstn k m).
Proof. intros A B R k l m H. revert k. induction H; intros [|k]; cbn; auto. Qed.

Lemma Forall2_len : forall A B (R : A -> B -> Prop) l m, Forall2 R l m -> length l = length m.
Proof. intros A B R l m H. induction H; cbn; auto. Qed.

Theorem C30_sync_durable_partial : C30_when (fun l t => no_spurious l t /\ no_skip l t).
Proof.
  intros conv text t R.
  assert (RN : reach (normal conv text) t) by (eapply reach_weaken; [|exact R]; intros ? ? (X & _); exact X).
  destruct (quiet_inv_sync conv text t R) as (_ & _ & _ & _ & RT & _). pose proof (normal_inv _ _ _ RN) as HI.
  destruct (file_lines conv text t RN) as (lss & L1 & L2). exists lss. split; [exact L1|].
  intros snap id j Hs Hi. specialize (RT snap id j Hs Hi). unfold in_file in RT. specialize (L2 id). pose proof (Forall2_len _ _ _ _ _ L2) as LE.
  split; [lia|]. intros b Hb E. destruct (written_prefix True t b HI Hb) as (n & _ & P). rewrite E in P.
  apply (Forall2_firstn _ _ _ j) in L2. rewrite <- P in L2 at 1. rewrite firstn_firstn, Nat.min_l in L2 by lia. exact L2.
Qed.
Print Assumptions C30_sync_durable_partial.

(** *** Two ways in which sync() returns too early *)

Lemma checked_states : forall (ok : rlabel -> rt -> Prop) chk size k ls t, 0 <= size <= 1000 -> Z.of_nat k < 1000 ->
  forallb demo_label ls = true -> demo_checked chk size k ls = Some t -> (forall l t, chk l t = true -> l <> RInterrupt) ->
  (forall l s, starting l = true -> normal Prop_Message.show textof l s -> ok l s) ->
  (forall l s, In l ls -> chk l s = true -> normal Prop_Message.show textof l s -> ok l s) -> reach ok t.
Proof.
  intros ok chk size k ls t H1 H2 HL E HI H3 H4. unfold demo_checked in E. destruct (first_state size) as [t0|] eqn:E0; [|discriminate].
  destruct (rt_run (begin k) t0) as [t1|] eqn:E1; [|discriminate].
  destruct (demo_begin ok size k t0 t1 H1 H2 E0 E1 H3) as (R & S). rewrite forallb_forall in HL.
  apply (runb_reach ok chk ls t1 t R); auto.
  - apply forallb_forall. intros l Hl. apply demo_label_plain. auto.
  - intros l s Hl Hp Hs Hc. apply H4; auto. apply demo_label_ok; auto; [congruence|]. eapply HI; eauto.
Qed.

Lemma decodes_read_back : forall f ls, decodes Prop_Message.show f ls -> f <> [] ->
  read_back f = Some (map (fun s => (sh_tid s, sh_text s)) (messages ls)).
Proof.
  intros f ls [(D & _) | (d1 & d2 & evs & D1 & D2 & <- & _)] N; [congruence|]. unfold read_back. rewrite D1, D2. reflexivity.
Qed.

(** Nothing to do; two threads exit; the third logs; sync().  Each scan of the two passes
    deletes the first buffer and ends there. *)
Definition early_run : list rlabel :=
  think 30 ++ [RIoDone 0] ++ think 21 ++ exit_thread 0 ++ exit_thread 1 ++ log 2 (msg 50 7) ++ [RSync [(2, 1%nat)]] ++ think 16.

(** sync() waits without testing a condition. *)
Definition spurious_run : list rlabel := log 0 (msg 50 7) ++ [RSync [(0, 1%nat)]; RSpurious].

Definition spurious_free (l : rlabel) (t : rt) : bool := match l with RSpurious | RInterrupt => false | _ => true end.
Definition skip_free (l : rlabel) (t : rt) : bool :=
  match l with
  | RInterrupt => false
  | RThread => match t_kpc t, t_sync t with KIdle, PERFORMING_SECOND_PASS => negb (t_skip t) | _, _ => true end
  | _ => true
  end.

Lemma skip_free_ok : forall l t, skip_free l t = true -> no_skip l t.
Proof. intros l t H -> H1 H2. cbn [skip_free] in H. rewrite H1, H2 in H. now destruct (t_skip t). Qed.

Theorem C30_sync_durable_refuted : ~ C30_when (fun l t => no_spurious l t).
Proof.
  intro H. destruct (demo_checked spurious_free 200 3 early_run) as [t|] eqn:E.
  - assert (R : reach (fun l t => normal Prop_Message.show textof l t /\ no_spurious l t) t).
    { apply (checked_states _ spurious_free 200 3 early_run t); try lia; auto.
      - intros l s X ->. discriminate X.
      - intros l s X N. split; [exact N|]. intros ->. discriminate X.
      - intros l s _ X N. split; [exact N|]. intros ->. discriminate X. }
    assert (X : match demo_checked spurious_free 200 3 early_run with Some t =>
      t_returned t = [[(2, 1%nat)]] /\ t_olds t = [] /\ t_file t = checkpoint_bytes 0 10 11 (repeat 0 8) ++ dict_bytes 1 [fsite 7]
      | None => False end) by (vm_compute; splits; reflexivity).
    rewrite E in X. destruct X as (X1 & X2 & X3). destruct (H _ _ t R) as (lss & D1 & D2). rewrite X2 in D1. cbn [app] in D1.
    inversion D1 as [|? ls ? ? D3 D4]. subst. inversion D4. subst. apply decodes_read_back in D3; [|rewrite X3; discriminate].
    rewrite X3 in D3. vm_compute (read_back _) in D3. apply some_inj in D3. symmetry in D3. apply map_eq_nil in D3.
    rewrite X1 in D2. destruct (D2 _ 2 1%nat (or_introl eq_refl) (or_introl eq_refl)) as (D5 & _).
    cbn [map concat] in D5. unfold tid_lines in D5. rewrite D3 in D5. cbn in D5. lia.
  - assert (X : match demo_checked spurious_free 200 3 early_run with Some _ => true | None => false end = true) by (vm_compute; reflexivity). rewrite E in X. discriminate X.
Qed.
Print Assumptions C30_sync_durable_refuted.

Theorem C30_spurious_wakeup_refuted : ~ C30_when (fun l t => no_skip l t).
Proof.
  intro H. destruct (demo_checked skip_free 200 1 spurious_run) as [t|] eqn:E.
  - assert (R : reach (fun l t => normal Prop_Message.show textof l t /\ no_skip l t) t).
    { apply (checked_states _ skip_free 200 1 spurious_run t); try lia; auto.
      - intros l s X ->. discriminate X.
      - intros l s X N. split; [exact N|]. intros ->. discriminate X.
      - intros l s _ X N. split; [exact N|]. now apply skip_free_ok. }
    assert (X : match demo_checked skip_free 200 1 spurious_run with Some t => t_returned t = [[(0, 1%nat)]] /\ t_olds t = [] /\ t_file t = []
      | None => False end) by (vm_compute; splits; reflexivity).
    rewrite E in X. destruct X as (X1 & X2 & X3). destruct (H _ _ t R) as (lss & D1 & D2). rewrite X2, X3 in D1. cbn [app] in D1.
    inversion D1 as [|? ls ? ? D3 D4]. subst. inversion D4. subst.
    assert (ls = []) as ->. { destruct D3 as [(_ & D3) | (d1 & d2 & evs & D3 & _)]; [exact D3|]. vm_compute in D3. discriminate D3. }
    rewrite X1 in D2. destruct (D2 _ 0 1%nat (or_introl eq_refl) (or_introl eq_refl)) as (D5 & _). cbn in D5. lia.
  - assert (X : match demo_checked skip_free 200 1 spurious_run with Some _ => true | None => false end = true) by (vm_compute; reflexivity). rewrite E in X. discriminate X.
Qed.
Print Assumptions C30_spurious_wakeup_refuted.

Theorem C30_statement_refuted : ~ C30_statement.
Proof.
  intro H. apply C30_spurious_wakeup_refuted. intros conv text t R. apply H. eapply reach_weaken; [|exact R]. intros l s (N & _). auto.
Qed.
Print Assumptions C30_statement_refuted.

(** Two threads log, one exits, sync() is called, its two passes and the write take place, and it returns. *)
Definition sync_run : list rlabel :=
  log 0 (msg 5 1) ++ log 1 (msg 6 2) ++ exit_thread 1 ++ log 0 (msg 7 3) ++ [RSync [(0, 2%nat); (1, 1%nat)]] ++ think 30 ++ [RIoDone 0] ++ think 10.

Example C30_instance :
  match demo_checked (fun l t => spurious_free l t && skip_free l t) 200 2 sync_run with
  | Some t => t_returned t = [[(0, 2%nat); (1, 1%nat)]] /\ read_back (t_file t) = Some [(0, [110; 61; 1]); (0, [110; 61; 3]); (1, [110; 61; 2])]
  | None => False
  end.
Proof. vm_compute. split; reflexivity. Qed.

(** ** C33 *)

Inductive path (ok : rlabel -> rt -> Prop) : rt -> list rlabel -> rt -> Prop :=
| path_nil t : path ok t [] t
| path_cons t l t1 ls t' : ok l t -> rt_step l t = Some t1 -> path ok t1 ls t' -> path ok t (l :: ls) t'.

Definition is_restart (l : rlabel) : bool := match l with RRestart _ _ _ => true | _ => false end.

(** setLogFile is called in [t], where the messages [snap] have reached memory; [t1] to [t2]: what happens until the
    thread has stopped; [t3]: the new file is in use; [t4]: any later time.  (a) One file is closed, [f], which begins
    with what it contained when the call was made.  (b) The closed files contain the messages [snap], and of
    any thread's messages nothing that it logs after [t3].  (c) The files closed never change again.  (d) The new file
    is empty at first, and every file defines what it uses. *)
Definition C33_when (ok : rlabel -> rt -> Prop) : Prop :=
  forall conv text t snap t1 ls t2 r u c t3 ls' t4,
  let ok' := fun l t => normal conv text l t /\ ok l t in
  reach ok' t -> ok' (RSwitch snap) t -> rt_step (RSwitch snap) t = Some t1 ->
  path ok' t1 ls t2 -> existsb is_restart ls = false ->
  ok' (RRestart r u c) t2 -> rt_step (RRestart r u c) t2 = Some t3 -> path ok' t3 ls' t4 ->
  (exists added, t_olds t3 = t_olds t ++ [t_file t ++ added]) /\
  (exists lss, Forall2 (decodes conv) (t_olds t3) lss /\
    (forall id j, In (id, j) snap -> (j <= length (concat (map (tid_lines id) lss)))%nat) /\
    (forall b, In b (t_bufs t3 ++ t_gone t3) -> exists k,
      Forall2 (shows (t_sites t3) text (b_id b)) (firstn k (b_msgs b)) (concat (map (tid_lines (b_id b)) lss))) /\
    forall id, 0 <= id -> ~ In id (map b_id (t_bufs t3 ++ t_gone t3)) -> concat (map (tid_lines id) lss) = []) /\
  (exists more, t_olds t4 = t_olds t3 ++ more) /\
  t_file t3 = [] /\ Forall (good_file (t_sites t4)) (t_olds t4 ++ [t_file t4]).

Definition w3 (t : rt) : list waiter * list (list (Z * nat)) * swpc := (t_waiters t, t_returned t, t_sw t).

Lemma notify_w3 : forall t t', w3 t = w3 t' -> w3 (notify t) = w3 (notify t').
Proof.
  unfold w3, notify. intros t t' E. injection E as E1 E2 E3. rewrite E1. destruct (t_waiters t') as [|w ws] eqn:EW; [now rewrite E1, E2, E3, EW|].
  destruct (w_switch w); rt_cbn; now rewrite E2, ?E3.
Qed.

Lemma notify_files : forall t, t_olds (notify t) = t_olds t /\ t_file (notify t) = t_file t.
Proof. intros t. unfold notify. destruct (t_waiters t); auto. destruct (w_switch w); auto. Qed.

Lemma on_ring_same : forall j l t t', on_ring j l t = Some t' -> t_olds t' = t_olds t /\ t_file t' = t_file t /\ w3 t' = w3 t.
Proof.
  unfold on_ring. intros j l t t' E. destruct (nth_error _ _); [|discriminate]. destruct (ring_step _ _ _); [|discriminate]. apply some_inj in E. subst t'. auto.
Qed.

Lemma thread_files : forall t t', k_step t = Some t' ->
  t_olds t' = t_olds t /\ t_file t' = t_file t /\ (w3 t' = w3 t \/ w3 t' = w3 (notify t)).
Proof.
  unfold k_step. intros t t' E. destruct (t_kpc t) eqn:EK; try discriminate E.
  - apply some_inj in E. subst t'. auto.
  - apply some_inj in E. subst t'. unfold k_dict. destruct (_ <? _); [|auto]. destruct (encodeNewDictionaryEntries _ _ _) as ((e & n) & d). auto.
  - destruct (t_kfull t); [apply some_inj in E; subst t'; auto|]. destruct (t_bufs t); [apply some_inj in E; subst t'; auto|].
    destruct (on_ring _ _ _) as [t1|] eqn:E1; [|discriminate]. apply on_ring_same in E1. apply some_inj in E. subst t'. destruct E1 as (A & B & C). auto.
  - destruct (nth_error _ _) as [b|]; [|discriminate]. destruct (c_pc _); try discriminate E; try (apply on_ring_same in E; tauto).
    destruct (0 <? n); [apply some_inj in E; subst t'; auto|]. destruct (on_ring _ _ _) as [t1|] eqn:E1; [|discriminate]. apply on_ring_same in E1.
    apply some_inj in E. subst t'. destruct E1 as (A & B & C). auto.
  - destruct (nth_error _ _) as [b|]; [|discriminate]. destruct (c_pc _); try discriminate E. destruct (n =? 0); [apply some_inj in E; subst t'; auto|].
    unfold k_encode in E. destruct (encodeLogMsgs _ _ _ _ _ _ _) as ((e & read) & cnt). destruct (read =? 0); [apply some_inj in E; subst t'; auto|].
    destruct (ring_run _ _ _); [|discriminate]. apply some_inj in E. subst t'. auto.
  - destruct (nth_error _ _) as [b|]; [|discriminate]. destruct (c_pc _); try discriminate E.
    destruct (on_ring _ _ _) as [t1|] eqn:E1; [|discriminate]. apply on_ring_same in E1. destruct E1 as (A & B & C).
    destruct (nth_error _ _) as [b'|]; [|discriminate]. destruct (c_pc _); apply some_inj in E; subst t'; auto.
    unfold k_delete. destruct (remove_at _ _); auto.
  - apply some_inj in E. subst t'. auto.
  - apply some_inj in E. subst t'. unfold k_idle. destruct (_ =? 0); [|auto]. destruct (t_sync t); auto.
    + destruct (t_outst t); auto. destruct (notify_files (set_sync SYNC_COMPLETED (set_kpc KIo t))) as (-> & ->). splits; auto. right. now apply notify_w3.
    + destruct (notify_files (set_kpc KIo t)) as (-> & ->). splits; auto. right. now apply notify_w3.
  - unfold k_io in E. destruct (t_outst t); [|apply some_inj in E; subst t'; auto]. destruct (t_flight t); [|destruct (t_kfull t); [discriminate|apply some_inj in E; subst t'; auto]].
    apply some_inj in E. subst t'. unfold k_finish_io. destruct (t_sync t); auto.
    match goal with |- context [notify ?a] => destruct (notify_files a) as (-> & ->) end. splits; auto. right. now apply notify_w3.
  - apply some_inj in E. subst t'. unfold k_write. destruct (_ =? 0); [auto|]. destruct (swapBuffer _ _ _). auto.
Qed.

(** Until the next restart the current file only grows, and the closed ones stay. *)
Lemma step_files : forall l t t', rt_step l t = Some t' -> is_restart l = false ->
  t_olds t' = t_olds t /\ exists x, t_file t' = t_file t ++ x.
Proof.
  intros l t t' E H. assert (N : t_file t = t_file t ++ []) by now rewrite app_nil_r. destruct l; cbn [rt_step is_restart] in E, H; try discriminate H;
    try (apply on_ring_same in E; destruct E as (-> & -> & _); split; [auto|now exists []]).
  - apply some_inj in E. subst t'. split; [auto|now exists []].
  - apply some_inj in E. subst t'. split; [auto|now exists []].
  - destruct (nth_error _ _); [|discriminate]. apply some_inj in E. subst t'. split; [auto|now exists []].
  - destruct (nth_error (t_sites t) _); [|discriminate]. destruct (nth_error _ _); [|discriminate]. destruct (ring_step _ _ _); [|discriminate]. apply some_inj in E. subst t'. split; [auto|now exists []].
  - apply thread_files in E. destruct E as (-> & -> & _). split; [auto|now exists []].
  - destruct (nth_error _ _) as [(base & n)|]; [|discriminate]. apply some_inj in E. subst t'. rt_cbn. split; [auto|eauto].
  - destruct (t_kpc t); try discriminate E. destruct (t_flight t); [discriminate|]. destruct (_ && _); [|discriminate]. apply some_inj in E. subst t'.
    unfold k_finish_io. destruct (t_sync t); try (split; [auto|now exists []]). match goal with |- context [notify ?a] => destruct (notify_files a) as (-> & ->) end. split; [auto|now exists []].
  - destruct (snap_ok _ _); [|discriminate]. apply some_inj in E. subst t'. split; [auto|now exists []].
  - destruct (t_waiters t); [discriminate|]. apply some_inj in E. subst t'. split; [auto|now exists []].
  - destruct (t_waiters t); [discriminate|]. apply some_inj in E. subst t'. destruct (notify_files t) as (-> & ->). split; [auto|now exists []].
  - destruct (t_sw t); try discriminate E. destruct (snap_ok _ _); [|discriminate]. apply some_inj in E. subst t'. split; [auto|now exists []].
  - destruct (t_sw t); try discriminate E. apply some_inj in E. subst t'. split; [auto|now exists []].
  - destruct (t_kpc t); try discriminate E. apply some_inj in E. subst t'. split; [auto|now exists []].
Qed.

Lemma restart_files : forall r u c t t', rt_step (RRestart r u c) t = Some t' ->
  t_olds t' = t_olds t ++ [t_file t] /\ t_file t' = [] /\ t_gfile t' = [] /\ t_sw t = SwJoin /\ w3 t' = (t_waiters t, t_returned t, SwNone).
Proof.
  intros r u c t t' E. cbn [rt_step] in E. destruct (t_sw t); try discriminate E. destruct (t_kpc t); try discriminate E. destruct (encoder _ _ _ _ _ _ _); [|discriminate].
  apply some_inj in E. subst t'. auto.
Qed.

Lemma path_olds : forall ok t ls t', path ok t ls t' -> exists more, t_olds t' = t_olds t ++ more.
Proof.
  intros ok t ls t' H. induction H as [t|t l t1 ls t' H E P (m & IH)]; [exists []; now rewrite app_nil_r|].
  destruct (is_restart l) eqn:EL.
  - destruct l; try discriminate EL. apply restart_files in E. destruct E as (E & _). rewrite E, <- app_assoc in IH. eauto.
  - apply step_files in E; auto. destruct E as (E & _). rewrite E in IH. eauto.
Qed.

Lemma path_file : forall ok t ls t', path ok t ls t' -> existsb is_restart ls = false -> t_olds t' = t_olds t /\ exists x, t_file t' = t_file t ++ x.
Proof.
  intros ok t ls t' H. induction H as [t|t l t1 ls t' H E P IH]; cbn [existsb]; intro L; [split; [auto|exists []; now rewrite app_nil_r]|].
  apply orb_false_elim in L. destruct L as (L1 & L2). destruct (step_files _ _ _ E L1) as (S1 & x & S2). destruct (IH L2) as (IH1 & y & IH2).
  split; [congruence|]. exists (x ++ y). now rewrite IH2, S2, app_assoc.
Qed.

Lemma path_reach : forall ok t ls t', path ok t ls t' -> reach ok t -> reach ok t'.
Proof. intros ok t ls t' H. induction H; auto. intro R. apply IHpath. eapply reach_step; eauto. Qed.

(** setLogFile's own call of sync(): only while it is in it does it wait. *)
Definition one_switch (t : rt) : Prop := t_sw t <> SwSync -> forall w, In w (t_waiters t) -> w_switch w = false.
Definition at_most_one (t : rt) : Prop := (length (filter w_switch (t_waiters t)) <= 1)%nat.

Lemma notify_one : forall t, one_switch t -> at_most_one t -> one_switch (notify t) /\ at_most_one (notify t).
Proof.
  unfold one_switch, at_most_one, notify. intros t H L. destruct (t_waiters t) as [|w ws] eqn:EW; [rewrite EW; auto|]. cbn [filter] in L. destruct (w_switch w) eqn:ES; rt_cbn.
  - cbn [length] in L. assert (N : filter w_switch ws = []) by (destruct (filter w_switch ws); [auto|cbn in L; lia]).
    split; [|rewrite N; cbn; lia]. intros _ w0 Hw. destruct (w_switch w0) eqn:E0; auto.
    assert (X : In w0 (filter w_switch ws)) by (apply filter_In; auto). rewrite N in X. destruct X.
  - split; [|exact L]. intros X w0 Hw. apply H; auto. now right.
Qed.

Definition sw_inv (t : rt) : Prop := one_switch t /\ at_most_one t.

Lemma sw_inv_w3 : forall t t', w3 t = w3 t' -> sw_inv t' -> sw_inv t.
Proof. unfold sw_inv, one_switch, at_most_one, w3. intros t t' E. injection E as E1 _ E3. now rewrite E1, E3. Qed.

Lemma finish_w3 : forall t, w3 (k_finish_io t) = w3 t \/ w3 (k_finish_io t) = w3 (notify t).
Proof. intros t. unfold k_finish_io. destruct (t_sync t); auto. right. now apply notify_w3. Qed.

Lemma step_sw : forall l t t', rt_step l t = Some t' -> sw_inv t -> sw_inv t'.
Proof.
  intros l t t' E H. assert (NO : forall s, w3 s = w3 t \/ w3 s = w3 (notify t) -> sw_inv s).
  { intros s [X | X]; eapply sw_inv_w3; eauto. destruct H. now apply notify_one. }
  destruct l; cbn [rt_step] in E;
    try (apply on_ring_same in E; destruct E as (_ & _ & E); apply NO; auto; fail).
  - apply some_inj in E. subst t'. apply NO. auto.
  - apply some_inj in E. subst t'. apply NO. auto.
  - destruct (nth_error _ _); [|discriminate]. apply some_inj in E. subst t'. apply NO. auto.
  - destruct (nth_error (t_sites t) _); [|discriminate]. destruct (nth_error _ _); [|discriminate]. destruct (ring_step _ _ _); [|discriminate]. apply some_inj in E. subst t'. apply NO. auto.
  - apply thread_files in E. apply NO. tauto.
  - destruct (nth_error _ _) as [(base & n)|]; [|discriminate]. apply some_inj in E. subst t'. apply NO. auto.
  - destruct (t_kpc t); try discriminate E. destruct (t_flight t); [discriminate|]. destruct (_ && _); [|discriminate]. apply some_inj in E. subst t'. apply NO, finish_w3.
  - destruct (snap_ok _ _); [|discriminate]. apply some_inj in E. subst t'. destruct H as (H1 & H2). unfold sw_inv, one_switch, at_most_one in *. rt_cbn. split.
    + intros X w Hw. apply in_app_or in Hw. destruct Hw as [Hw | [<- | []]]; auto.
    + rewrite filter_app, app_length. cbn. lia.
  - destruct (t_waiters t) as [|w ws] eqn:EW; [discriminate|]. apply some_inj in E. subst t'. destruct H as (H1 & H2). unfold sw_inv, one_switch, at_most_one in *. rewrite EW in *. rt_cbn. split.
    + intros X w0 Hw. apply H1; auto. apply in_app_or in Hw. destruct Hw as [Hw | [<- | []]]; [now right|now left].
    + cbn [filter] in *. rewrite filter_app, app_length. cbn [filter]. destruct (w_switch w); cbn [length] in *; lia.
  - destruct (t_waiters t) as [|w ws] eqn:EW; [discriminate|]. apply some_inj in E. subst t'. apply NO. auto.
  - destruct (t_sw t) eqn:ES; try discriminate E. destruct (snap_ok _ _); [|discriminate]. apply some_inj in E. subst t'. destruct H as (H1 & H2). unfold sw_inv, one_switch, at_most_one in *. rewrite ES in *. rt_cbn.
    split; [congruence|]. rewrite filter_app, app_length. cbn. destruct (filter w_switch (t_waiters t)) as [|w ws] eqn:EF; [cbn; lia|].
    assert (X : In w (filter w_switch (t_waiters t))) by (rewrite EF; now left). apply filter_In in X. destruct X as (X1 & X2). rewrite (H1 ltac:(discriminate) w X1) in X2. discriminate.
  - destruct (t_sw t) eqn:ES; try discriminate E. apply some_inj in E. subst t'. destruct H as (H1 & H2). unfold sw_inv, one_switch, at_most_one in *. rewrite ES in *. rt_cbn.
    split; auto. intros _. apply H1. discriminate.
  - apply restart_files in E. destruct E as (_ & _ & _ & E1 & E2). unfold w3 in E2. injection E2 as E2 _ E3. destruct H as (H1 & H2). unfold sw_inv, one_switch, at_most_one in *. rewrite E2, E3, E1 in *.
    split; auto. intros _. apply H1. discriminate.
  - destruct (t_kpc t); try discriminate E. apply some_inj in E. subst t'. apply NO. auto.
Qed.

Lemma reach_sw : forall ok t, reach ok t -> sw_inv t.
Proof.
  intros ok t R. induction R as [m size b1 b2 r u c t H0 H1 H2 H3 E|l t t' R IH HO E]; [|eapply step_sw; eauto].
  unfold rt_init in E. destruct (encoder _ _ _ _ _ _ _); [|discriminate]. apply some_inj in E. subst t. unfold sw_inv, one_switch, at_most_one. rt_cbn. split; [intros _ w []|cbn; lia].
Qed.

(** The messages setLogFile waits for. *)
Definition pending (snap : list (Z * nat)) (t : rt) : Prop := In snap (t_returned t) \/ In (Waiter snap true) (t_waiters t).

Lemma notify_pending : forall snap t, pending snap t -> pending snap (notify t).
Proof.
  unfold pending, notify. intros snap t H. destruct (t_waiters t) as [|w ws] eqn:EW; [rewrite EW; auto|]. rt_cbn. destruct H as [H | [-> | H]].
  - left. destruct (w_switch w); apply in_or_app; auto.
  - left. cbn [w_switch w_snap]. apply in_or_app. right. now left.
  - now right.
Qed.

Lemma step_pending : forall snap l t t', rt_step l t = Some t' -> pending snap t -> pending snap t'.
Proof.
  intros snap l t t' E H. assert (NO : forall s, w3 s = w3 t \/ w3 s = w3 (notify t) -> pending snap s).
  { intros s [X | X]; unfold w3 in X; injection X as X1 X2 X3; unfold pending; rewrite X1, X2; [exact H|now apply notify_pending]. }
  destruct l; cbn [rt_step] in E;
    try (apply on_ring_same in E; destruct E as (_ & _ & E); apply NO; auto; fail).
  - apply some_inj in E. subst t'. apply NO. auto.
  - apply some_inj in E. subst t'. apply NO. auto.
  - destruct (nth_error _ _); [|discriminate]. apply some_inj in E. subst t'. apply NO. auto.
  - destruct (nth_error (t_sites t) _); [|discriminate]. destruct (nth_error _ _); [|discriminate]. destruct (ring_step _ _ _); [|discriminate]. apply some_inj in E. subst t'. apply NO. auto.
  - apply thread_files in E. apply NO. tauto.
  - destruct (nth_error _ _) as [(base & n)|]; [|discriminate]. apply some_inj in E. subst t'. apply NO. auto.
  - destruct (t_kpc t); try discriminate E. destruct (t_flight t); [discriminate|]. destruct (_ && _); [|discriminate]. apply some_inj in E. subst t'. apply NO, finish_w3.
  - destruct (snap_ok _ _); [|discriminate]. apply some_inj in E. subst t'. unfold pending in *. rt_cbn. destruct H; [now left|right; apply in_or_app; now left].
  - destruct (t_waiters t) as [|w ws] eqn:EW; [discriminate|]. apply some_inj in E. subst t'. unfold pending in *. rewrite EW in H. rt_cbn.
    destruct H as [H | [-> | H]]; [now left|right; apply in_or_app; right; now left|right; apply in_or_app; now left].
  - destruct (t_waiters t) as [|w ws] eqn:EW; [discriminate|]. apply some_inj in E. subst t'. apply NO. auto.
  - destruct (t_sw t) eqn:ES; try discriminate E. destruct (snap_ok _ _); [|discriminate]. apply some_inj in E. subst t'. unfold pending in *. rt_cbn. destruct H; [now left|right; apply in_or_app; now left].
  - destruct (t_sw t) eqn:ES; try discriminate E. apply some_inj in E. subst t'. unfold pending in *. exact H.
  - apply restart_files in E. destruct E as (_ & _ & _ & _ & E2). unfold w3 in E2. injection E2 as E2 E3 _. unfold pending in *. now rewrite E2, E3.
  - destruct (t_kpc t); try discriminate E. apply some_inj in E. subst t'. apply NO. auto.
Qed.

Lemma path_pending : forall snap ok t ls t', path ok t ls t' -> pending snap t -> pending snap t'.
Proof. intros snap ok t ls t' H. induction H; auto. intro P. apply IHpath. eapply step_pending; eauto. Qed.

Theorem C33_switch_self_contained_partial : C33_when (fun l t => no_spurious l t /\ no_skip l t).
Proof.
  intros conv text t snap t1 ls t2 r u c t3 ls' t4 ok' R HS ES P2 NR HR ER P4.
  assert (R1 : reach ok' t1) by (eapply reach_step; eauto). assert (R2 : reach ok' t2) by (eapply path_reach; eauto).
  assert (R3 : reach ok' t3) by (eapply reach_step; eauto). assert (R4 : reach ok' t4) by (eapply path_reach; eauto).
  assert (NM : forall s, reach ok' s -> reach (normal conv text) s) by (intros s X; eapply reach_weaken; [|exact X]; intros ? ? (Y & _); exact Y).
  destruct (restart_files _ _ _ _ _ ER) as (F1 & F2 & F3 & F4 & F5).
  assert (PS : In snap (t_returned t3)).
  { assert (X : pending snap t2). { eapply path_pending; [exact P2|]. cbn [rt_step] in ES. destruct (t_sw t); try discriminate ES. destruct (snap_ok _ _); [|discriminate].
      apply some_inj in ES. subst t1. right. rt_cbn. apply in_or_app. right. now left. }
    unfold w3 in F5. injection F5 as _ F5 _. rewrite F5. destruct X as [X | X]; auto.
    destruct (reach_sw _ _ R2) as (H1 & _). specialize (H1 ltac:(rewrite F4; discriminate) _ X). discriminate H1. }
  destruct (path_file _ _ _ _ P2 NR) as (G1 & x & G2). destruct (step_files _ _ _ ES eq_refl) as (G3 & y & G4).
  splits.
  - exists (y ++ x). rewrite F1, G1, G3, G2, G4. now rewrite app_assoc.
  - destruct (file_lines_apart conv text t3 (NM _ R3)) as (lss & ls3 & L1 & _ & L2 & _). exists lss. splits; auto.
    + intros id j Hj. destruct (quiet_inv_sync conv text t3) as (_ & _ & _ & _ & RT & _); [exact R3|]. specialize (RT _ _ _ PS Hj). unfold in_file in RT. rewrite F3, app_nil_r in RT.
      specialize (L2 id). apply Forall2_len in L2. lia.
    + intros b Hb. exists (length (emitted (b_id b) (concat (t_golds t3)))). destruct (written_prefix True t3 b (normal_inv _ _ _ (NM _ R3)) Hb) as (n & _ & W).
      rewrite F3, app_nil_r in W. rewrite W. apply L2.
    + intros id H0 HN. specialize (L2 id). destruct (emitted id (concat (t_golds t3))) as [|y0 ys] eqn:EE; [now inversion L2|]. exfalso. apply HN.
      destruct (emitted_buf True t3 id (normal_inv _ _ _ (NM _ R3)) H0) as (b & B1 & B2 & _); [|rewrite <- B2; now apply in_map].
      unfold everything. rewrite emitted_app, EE. discriminate.
  - eapply path_olds; eauto.
  - exact F2.
  - apply (C17_defined_before_use_partial t4). eapply reach_weaken; [|exact R4]. intros l s ((A & B & _) & _). auto.
Qed.
Print Assumptions C33_switch_self_contained_partial.

Lemma runb_path : forall (ok : rlabel -> rt -> Prop) chk ls t t', forallb plain ls = true -> rt_runb chk ls t = Some t' ->
  (forall l s, In l ls -> t_sites s = t_sites t -> chk l s = true -> ok l s) -> path ok t ls t' /\ t_sites t' = t_sites t.
Proof.
  intros ok chk. induction ls as [|l ls IH]; intros t t' P E H; cbn [rt_runb forallb] in *.
  - apply some_inj in E. subst t'. split; [constructor|auto].
  - apply andb_prop in P. destruct P as (P1 & P2). destruct (chk l t) eqn:EC; [|discriminate]. destruct (rt_step l t) as [t1|] eqn:E1; [|discriminate].
    assert (S1 : t_sites t1 = t_sites t) by (eapply step_sites; [exact E1|]; intros s ->; discriminate P1).
    destruct (IH t1 t' P2 E) as (IH1 & IH2). { intros l0 s Hl Hs. apply H; [now right|congruence]. }
    split; [|congruence]. econstructor; eauto. apply H; auto. now left.
Qed.

Lemma checked_sites : forall chk size k ls t, 0 <= size <= 1000 -> Z.of_nat k < 1000 -> forallb demo_label ls = true -> demo_checked chk size k ls = Some t -> t_sites t = [fsite 7].
Proof.
  intros chk size k ls t H1 H2 HL E. unfold demo_checked in E. destruct (first_state size) as [t0|] eqn:E0; [|discriminate].
  destruct (rt_run (begin k) t0) as [t1|] eqn:E1; [|discriminate].
  destruct (demo_begin (fun _ _ => True) size k t0 t1 H1 H2 E0 E1 (fun _ _ _ _ => I)) as (R & S). rewrite forallb_forall in HL. rewrite <- S.
  apply (runb_reach (fun _ _ => True) chk ls t1 t R); auto. apply forallb_forall. intros l Hl. apply demo_label_plain. auto.
Qed.

(** The two buffers deleted in setLogFile's sync(): the third thread's message is not in the file that is closed. *)
Definition switch_run : list rlabel := think 30 ++ [RIoDone 0] ++ think 21 ++ exit_thread 0 ++ exit_thread 1 ++ log 2 (msg 50 7).
Definition stop_run : list rlabel := think 16 ++ [RStop] ++ think 3.
Definition switching (k : nat) (chk : rlabel -> rt -> bool) (before : list rlabel) (snap : list (Z * nat)) (during : list rlabel) : option (rt * rt * rt * rt) :=
  match demo_checked chk 200 k before with
  | None => None
  | Some t =>
    match rt_step (RSwitch snap) t with
    | None => None
    | Some t1 =>
      match rt_runb chk during t1 with
      | None => None
      | Some t2 => match rt_step (RRestart 60 61 (repeat 0 8)) t2 with None => None | Some t3 => Some (t, t1, t2, t3) end
      end
    end
  end.

Lemma switching_steps : forall k chk before snap during t t1 t2 t3, switching k chk before snap during = Some (t, t1, t2, t3) ->
  demo_checked chk 200 k before = Some t /\ rt_step (RSwitch snap) t = Some t1 /\ rt_runb chk during t1 = Some t2 /\ rt_step (RRestart 60 61 (repeat 0 8)) t2 = Some t3.
Proof.
  unfold switching. intros k chk before snap during t t1 t2 t3 H. destruct (demo_checked _ _ _ _) as [s|] eqn:E; [|discriminate].
  destruct (rt_step (RSwitch snap) s) as [s1|] eqn:E1; [|discriminate]. destruct (rt_runb chk during s1) as [s2|] eqn:E2; [|discriminate].
  destruct (rt_step (RRestart _ _ _) s2) as [s3|] eqn:E3; [|discriminate]. apply some_inj in H. injection H as -> -> -> ->. auto.
Qed.

Theorem C33_switch_self_contained_refuted : ~ C33_when (fun l t => no_spurious l t).
Proof.
  intro H.
  assert (X : match switching 3 spurious_free switch_run [(2, 1%nat)] stop_run with
    | Some (_, _, _, t3) => t_olds t3 = [checkpoint_bytes 0 10 11 (repeat 0 8) ++ dict_bytes 1 [fsite 7]]
    | None => False end) by (vm_compute; reflexivity).
  destruct (switching 3 spurious_free switch_run [(2, 1%nat)] stop_run) as [(((t & t1) & t2) & t3)|] eqn:E0; [|destruct X].
  apply switching_steps in E0. destruct E0 as (E & E1 & E2 & E3).
  set (ok' := fun l t => normal Prop_Message.show textof l t /\ no_spurious l t).
  assert (OK : forall l s, demo_label l = true -> t_sites s = [fsite 7] -> spurious_free l s = true -> ok' l s).
  { intros l s D S C. assert (l <> RInterrupt) by (intros ->; discriminate C). split; [apply demo_label_ok; auto|]. intros ->. discriminate C. }
  assert (S : t_sites t = [fsite 7]) by (apply (checked_sites spurious_free 200 3 switch_run); [lia|lia|reflexivity|exact E]).
  assert (R : reach ok' t).
  { apply (checked_states _ spurious_free 200 3 switch_run t); [lia|lia|reflexivity|exact E| | |].
    - intros l s Y ->. discriminate Y.
    - intros l s Y N. split; [exact N|]. intros ->. discriminate Y.
    - intros l s _ Y N. split; [exact N|]. intros ->. discriminate Y. }
  assert (S1 : t_sites t1 = [fsite 7]) by (rewrite <- S; eapply step_sites; [exact E1|]; discriminate).
  destruct (runb_path ok' spurious_free stop_run t1 t2 eq_refl E2) as (P2 & S2).
  { intros l s Hl Hs C. apply OK; auto; [|congruence]. assert (Y : forallb demo_label stop_run = true) by reflexivity. rewrite forallb_forall in Y. auto. }
  destruct (H Prop_Message.show textof t [(2, 1%nat)] t1 stop_run t2 60 61 (repeat 0 8) t3 [] t3 R (OK (RSwitch _) t eq_refl S eq_refl) E1 P2 eq_refl
    (OK (RRestart 60 61 (repeat 0 8)) t2 eq_refl (eq_trans S2 S1) eq_refl) E3 (path_nil _ _)) as (_ & (lss & D1 & D2 & _) & _).
  rewrite X in D1. inversion D1 as [|? ls ? ? D3 D4]. subst. inversion D4. subst. apply decodes_read_back in D3; [|discriminate].
  vm_compute (read_back _) in D3. apply some_inj in D3. symmetry in D3. apply map_eq_nil in D3.
  specialize (D2 2 1%nat (or_introl eq_refl)). cbn [map concat] in D2. unfold tid_lines in D2. rewrite D3 in D2. cbn in D2. lia.
Qed.
Print Assumptions C33_switch_self_contained_refuted.

(** A switch that works: the messages waited for and one logged while the thread stops are in the old file, a later one
    in the new. *)
Definition good_before : list rlabel := log 0 (msg 5 1) ++ log 1 (msg 6 2) ++ exit_thread 1 ++ log 0 (msg 7 3).
Definition good_stop : list rlabel :=
  think 30 ++ [RIoDone 0] ++ think 10 ++ log 0 (msg 8 4) ++ [RStop] ++ think 10 ++ [RIoDone 0] ++ think 9.
Definition good_after : list rlabel := log 0 (msg 70 5) ++ think 30 ++ [RIoDone 0].

Example C33_instance :
  let chk l t := spurious_free l t && skip_free l t in
  match switching 2 chk good_before [(0, 2%nat); (1, 1%nat)] good_stop with
  | Some (_, _, _, t3) =>
    match rt_runb chk good_after t3 with
    | Some t4 => map read_back (t_olds t4 ++ [t_file t4]) =
        [Some [(0, [110; 61; 1]); (0, [110; 61; 3]); (1, [110; 61; 2]); (0, [110; 61; 4])]; Some [(0, [110; 61; 5])]]
    | None => False
    end
  | None => False
  end.
Proof. vm_compute. reflexivity. Qed.
