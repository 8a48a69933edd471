(** C31: ids of log statements.  C32: the log level. *)
From Verif Require Import Base BaseProofs DecodeProofs RingProofs Register RegisterProofs.
From Coq Require Import Permutation.

Ltac Zify.zify_post_hook ::= Z.div_mod_to_equations.

(** ** C31 *)

(** Runs of any number of threads, with statements 0 to N-1; ids are of type int. *)
Definition g_reach (N : Z) (sev : Z -> Z) (g : reg) : Prop :=
  exists ls, Forall (calls_ok N) ls /\ g_run sev ls g_init = Some g.

Lemma reach_reg_inv : forall N sev g, N <= 2 ^ 31 -> g_reach N sev g -> reg_inv N g.
Proof. intros N sev g HN (ls & H & R). eapply run_inv; eauto. apply init_inv. Qed.

(** [g_msgs]: the published messages, [g_sites]: the list the dictionary is made from, [g_copies]: what the compression thread
    has found in it each time. *)
Theorem C31_one_id : forall N sev g, N <= 2 ^ 31 -> g_reach N sev g ->
  NoDup (g_sites g) /\
  (forall s v, In (s, v) (g_msgs g) -> 0 <= v /\ (g_lock g = None -> nth_error (g_sites g) (Z.to_nat v) = Some s)) /\
  (forall s v s' v', In (s, v) (g_msgs g) -> In (s', v') (g_msgs g) -> (s = s' <-> v = v')) /\
  (forall c, In c (g_copies g) -> exists r, g_sites g = c ++ r).
Proof.
  intros N sev g HN R. destruct (reach_reg_inv N sev g HN R) as (IL & _ & _ & _ & IM & IC).
  assert (TB : exists sites, inv_tab (g_id g) sites /\ (exists r, sites = g_sites g ++ r) /\ (g_lock g = None -> sites = g_sites g)).
  { destruct (lock_tab _ _ _ _ IL) as [X | (s & X & i & E)].
    - exists (g_sites g). splits; auto. exists []. now rewrite app_nil_r.
    - exists (g_sites g ++ [s]). splits; eauto; [now apply half_push|congruence]. }
  destruct TB as (sites & T & (r & ER) & EN). splits.
  - destruct T as (T & _). rewrite ER in T. clear - T. induction r as [|a r IH] using rev_ind; [now rewrite app_nil_r in T|].
    apply IH. rewrite app_assoc in T. apply NoDup_remove_1 in T. now rewrite app_nil_r in T.
  - intros s v H. destruct (IM s v H) as (M1 & M2). destruct T as (_ & T). destruct (T s) as [(X & _) | (k & X1 & X2)]; [congruence|].
    split; [lia|]. intros L. rewrite <- (EN L). replace (Z.to_nat v) with k by lia. exact X2.
  - intros s v s' v' H H'. destruct (IM s v H) as (M1 & M2). destruct (IM s' v' H') as (M3 & M4). split; [congruence|]. intros ->. apply (tab_inj _ _ s s' T); congruence.
  - intros c Hc. eapply Forall_forall in IC; eauto.
Qed.
Print Assumptions C31_one_id.

(** An id once given stays; the list only grows. *)
Theorem C31_never_changes : forall N sev g l g', N <= 2 ^ 31 -> g_reach N sev g -> g_step sev l g = Some g' ->
  (forall s, g_id g s <> -1 -> g_id g' s = g_id g s) /\ exists r, g_sites g' = g_sites g ++ r.
Proof. intros N sev g l g' HN R E. exact (step_mono N sev l g g' (reach_reg_inv N sev g HN R) E). Qed.
Print Assumptions C31_never_changes.

(** Wherever a thread is after its level check, and whoever holds the lock, it can go on and publish its message. *)
Theorem C31_completes : forall N sev g i p sb s, 0 <= N <= 2 ^ 31 -> g_reach N sev g -> nth_error (g_thr g) i = Some (Thr p sb) ->
  site_of p = Some s -> p <> PLevel s ->
  exists ls g' v, g_run sev ls g = Some g' /\ Forall (calls_ok 0) ls /\ nth_error (g_thr g') i = Some (Thr PIdle []) /\ In (s, v) (g_msgs g').
Proof.
  intros N sev g i p sb s HN R EI ES NP. pose proof (reach_reg_inv N sev g ltac:(lia) R) as HI. clear R.
  assert (CM : forall n, Forall (calls_ok 0) (repeat (GCommit i) n)). { intros n. apply Forall_forall. intros l Hl. apply repeat_spec in Hl. subst l. exact I. }
  assert (READ : forall g0 sb0, nth_error (g_thr g0) i = Some (Thr (PRead s) sb0) ->
    exists ls g' v, g_run sev ls g0 = Some g' /\ Forall (calls_ok 0) ls /\ nth_error (g_thr g') i = Some (Thr PIdle []) /\ In (s, v) (g_msgs g')).
  { intros g0 sb0 E0. destruct (thread_step sev i _ g0 (Thr PIdle (sb0 ++ [WMsg s (seen_id sb0 (g_id g0) s)])) E0 eq_refl) as (g1 & S1 & A1 & _).
    destruct (drain sev i _ _ g1 A1) as (g2 & R2 & A2 & _ & _ & _ & F2). exists (GStep i :: repeat (GCommit i) (length (sb0 ++ [WMsg s (seen_id sb0 (g_id g0) s)]))), g2, (seen_id sb0 (g_id g0) s).
    cbn [g_run]. rewrite S1. splits; auto; [constructor; [exact I|auto]|]. apply F2. right. apply in_or_app. right. now left. }
  assert (JOIN : forall ls0 g0, g_run sev ls0 g = Some g0 -> Forall (calls_ok 0) ls0 ->
    (exists ls g' v, g_run sev ls g0 = Some g' /\ Forall (calls_ok 0) ls /\ nth_error (g_thr g') i = Some (Thr PIdle []) /\ In (s, v) (g_msgs g')) ->
    exists ls g' v, g_run sev ls g = Some g' /\ Forall (calls_ok 0) ls /\ nth_error (g_thr g') i = Some (Thr PIdle []) /\ In (s, v) (g_msgs g')).
  { intros ls0 g0 R0 O0 (ls & g' & v & R1 & O1 & X). exists (ls0 ++ ls), g', v. rewrite run_app, R0. splits; try tauto. apply Forall_app. auto. }
  assert (IN : forall n g0 p0 sb0, nth_error (g_thr g0) i = Some (Thr p0 sb0) ->
    match p0 with PIn a => a = s /\ n = 4%nat | PAssign a => a = s /\ n = 3%nat | PPush a => a = s /\ n = 2%nat | PUnlock a => a = s /\ n = 1%nat | _ => False end ->
    exists ls g' v, g_run sev ls g0 = Some g' /\ Forall (calls_ok 0) ls /\ nth_error (g_thr g') i = Some (Thr PIdle []) /\ In (s, v) (g_msgs g')).
  { intros n g0 p0 sb0 E0 HP. destruct (leave sev n i s p0 sb0 g0 E0 HP) as (ls & g1 & R1 & O1 & A1 & _). destruct (READ g1 [] A1) as (ls2 & g2 & v & R2 & O2 & X).
    exists (ls ++ ls2), g2, v. rewrite run_app, R1. splits; try tauto. apply Forall_app. auto. }
  assert (LOCK : forall g0 sb0, reg_inv N g0 -> nth_error (g_thr g0) i = Some (Thr (PLock s) sb0) ->
    exists ls g' v, g_run sev ls g0 = Some g' /\ Forall (calls_ok 0) ls /\ nth_error (g_thr g') i = Some (Thr PIdle []) /\ In (s, v) (g_msgs g')).
  { intros g0 sb0 I0 E0. destruct (drain sev i _ _ g0 E0) as (g1 & R1 & A1 & _).
    assert (I1 : reg_inv N g1) by (eapply run_inv; [lia|exact I0|apply calls_weaken; [lia|apply CM]|exact R1]).
    assert (NL : g_lock g1 <> Some i).
    { intros EL. destruct I1 as (L1 & _). rewrite EL in L1. destruct L1 as ((h & B1 & B2) & _). assert (h = Thr (PLock s) []) by congruence. subst h. inversion B2. }
    destruct (release N sev i _ g1 I1 A1 NL) as (ls2 & g2 & R2 & O2 & A2 & L2).
    assert (S3 : g_step sev (GStep i) g2 = Some (set_thr i (Thr (PIn s) []) (set_lock (Some i) g2))) by (cbn [g_step]; rewrite A2; unfold thr_step; cbn [h_pc h_sb]; now rewrite L2).
    assert (A3 : nth_error (g_thr (set_thr i (Thr (PIn s) []) (set_lock (Some i) g2))) i = Some (Thr (PIn s) [])) by (cbn [set_thr set_lock g_thr]; eapply put_same; eauto).
    destruct (IN 4%nat _ _ _ A3 (conj eq_refl eq_refl)) as (ls4 & g4 & v & R4 & O4 & X).
    exists (repeat (GCommit i) (length sb0) ++ ls2 ++ GStep i :: ls4), g4, v. rewrite run_app, R1, run_app, R2. cbn [g_run]. rewrite S3. splits; try tauto.
    apply Forall_app. split; [apply CM|]. apply Forall_app. split; auto. constructor; [exact I|auto]. }
  destruct p; cbn [site_of] in ES; try discriminate ES; injection ES as ->; try congruence.
  - destruct (seen_id sb (g_id g) s =? UNASSIGNED) eqn:EQ.
    + destruct (thread_step sev i _ g (Thr (PLock s) sb) EI) as (g1 & S1 & A1 & _); [unfold thr_step; cbn [h_pc h_sb]; now rewrite EQ|].
      apply (JOIN [GStep i] g1); [cbn [g_run]; now rewrite S1|repeat constructor|]. eapply LOCK; eauto. eapply step_inv; [|exact HI| |exact S1]; [lia|exact I].
    + destruct (thread_step sev i _ g (Thr (PRead s) sb) EI) as (g1 & S1 & A1 & _); [unfold thr_step; cbn [h_pc h_sb]; now rewrite EQ|].
      apply (JOIN [GStep i] g1); [cbn [g_run]; now rewrite S1|repeat constructor|]. eapply READ; eauto.
  - eapply LOCK; eauto.
  - exact (IN 4%nat _ _ _ EI (conj eq_refl eq_refl)).
  - exact (IN 3%nat _ _ _ EI (conj eq_refl eq_refl)).
  - exact (IN 2%nat _ _ _ EI (conj eq_refl eq_refl)).
  - exact (IN 1%nat _ _ _ EI (conj eq_refl eq_refl)).
  - eapply READ; eauto.
Qed.
Print Assumptions C31_completes.

(** Two threads reach statement 5 at the same time, and one of them statement 9.  The second finds the id while the first has
    not yet pushed the statement: its message is published when the list is still empty, and the lock held. *)
Definition steps (i n : nat) : list glabel := repeat (GStep i) n.
Definition race : list glabel :=
  [GNew; GNew; GCall 0 5; GCall 1 5] ++ steps 0 5 ++ [GCommit 0] ++ steps 1 3 ++ [GCommit 1].
Definition race_end : list glabel :=
  steps 0 3 ++ repeat (GCommit 0) 3 ++ [GCopy; GCall 1 9] ++ steps 1 8 ++ repeat (GCommit 1) 4 ++ [GCopy].

Example C31_instance :
  match g_run (fun _ => 1) race g_init with
  | Some g => g_msgs g = [(5, 0)] /\ g_sites g = [] /\ g_lock g = Some 0%nat /\
    match g_run (fun _ => 1) race_end g with
    | Some g' => g_msgs g' = [(5, 0); (5, 0); (9, 1)] /\ g_copies g' = [[5]; [5; 9]]
    | None => False
    end
  | None => False
  end.
Proof. vm_compute. splits; reflexivity. Qed.

(** ** C32 *)

(** What setLogLevel should make of [v]. *)
Definition nearest (v : Z) : Z := Z.max 0 (Z.min v DEBUG).

Definition C32_clamp_statement : Prop := forall v, clamp v = nearest v.

Theorem C32_clamp_refuted : ~ C32_clamp_statement.
Proof. intro H. specialize (H (-1)). vm_compute in H. discriminate H. Qed.
Print Assumptions C32_clamp_refuted.

Theorem C32_clamp_partial : forall v, 0 <= v < 2 ^ 32 -> clamp v = nearest v.
Proof.
  intros v H. unfold clamp, nearest, to_u, NUM_LOG_LEVELS, DEBUG. rewrite Z.mod_small by lia.
  destruct (v <? 0) eqn:E1; [apply Z.ltb_lt in E1; lia|]. destruct (5 <=? v) eqn:E2; [apply Z.leb_le in E2|apply Z.leb_gt in E2]; lia.
Qed.
Print Assumptions C32_clamp_partial.

(** The level in force after calls of setLogLevel. *)
Fixpoint level_after (ls : list glabel) (l : Z) : Z :=
  match ls with [] => l | GSet _ v :: r => level_after r (nearest v) | _ :: r => level_after r l end.

Definition set_by (i : nat) (l : glabel) : Prop := match l with GSet j v => j = i /\ 0 <= v < 2 ^ 32 | _ => True end.
Definition no_level (w : wr) : Prop := match w with WLevel _ => False | _ => True end.

Lemma seen_level_app : forall a b l, seen_level (a ++ b) l = seen_level b (seen_level a l).
Proof. induction a as [|w a IH]; intros b l; cbn [app seen_level]; auto. Qed.

Lemma seen_no_level : forall sb l, Forall no_level sb -> seen_level sb l = l.
Proof. induction sb as [|w sb IH]; intros l H; inversion H; subst; cbn [seen_level]; auto. destruct w; try contradiction; auto. Qed.

(** Only thread [i] sets the level; [l] is the last it has set. *)
Definition level_inv (i : nat) (l : Z) (g : reg) : Prop :=
  (forall h, nth_error (g_thr g) i = Some h -> seen_level (h_sb h) (g_level g) = l) /\
  (nth_error (g_thr g) i = None -> g_level g = l) /\
  (forall j h, j <> i -> nth_error (g_thr g) j = Some h -> Forall no_level (h_sb h)).

Lemma level_put : forall i l g k h h' level ids sites lk msgs copies, level_inv i l g -> nth_error (g_thr g) k = Some h ->
  (k = i -> seen_level (h_sb h') level = l) -> (k <> i -> level = g_level g /\ Forall no_level (h_sb h')) ->
  level_inv i l (Reg ids sites lk level msgs copies (put k h' (g_thr g))).
Proof.
  intros i l g k h h' level ids sites lk msgs copies (A & B & C) EK H1 H2. unfold level_inv. cbn [g_thr g_level]. splits.
  - intros x Hx. destruct (Nat.eq_dec k i) as [-> | D].
    + rewrite (put_same _ i h' h) in Hx by auto. assert (x = h') by congruence. subst x. auto.
    + rewrite (put_other _ k i h' h) in Hx; auto. destruct (H2 D) as (-> & _). auto.
  - intros X. destruct (Nat.eq_dec k i) as [-> | D].
    + rewrite (put_same _ i h' h) in X by auto. discriminate X.
    + rewrite (put_other _ k i h' h) in X; auto. destruct (H2 D) as (-> & _). auto.
  - intros j x D Hx. destruct (Nat.eq_dec j k) as [-> | Dk].
    + rewrite (put_same _ k h' h) in Hx by auto. assert (x = h') by congruence. subst x. apply H2. auto.
    + rewrite (put_other _ k j h' h) in Hx; eauto.
Qed.

Lemma thr_step_level : forall sev i p sb g h' g', thr_step sev i (Thr p sb) g = Some (h', g') ->
  g_thr g' = g_thr g /\ g_level g' = g_level g /\ exists r, h_sb h' = sb ++ r /\ Forall no_level r.
Proof.
  intros sev i p sb g h' g' E. unfold thr_step in E. cbn [h_pc h_sb] in E.
  assert (N : exists r, sb = sb ++ r /\ Forall no_level r) by (exists []; split; [now rewrite app_nil_r|constructor]).
  destruct p; try discriminate E; try (apply some_inj in E; injection E as <- <-; cbn [h_sb]; splits; [auto|auto|first [exact N | eexists; split; [reflexivity|repeat constructor]]]; fail).
  destruct sb; [|discriminate]. destruct (g_lock g); [discriminate|]. apply some_inj in E. injection E as <- <-. splits; auto.
Qed.

Lemma level_step : forall sev i l g lab g', set_by i lab -> level_inv i l g -> g_step sev lab g = Some g' ->
  level_inv i (level_after [lab] l) g'.
Proof.
  intros sev i l g lab g' HS HI E. pose proof HI as (A & B & C). destruct lab; cbn [g_step level_after] in *.
  - apply some_inj in E. subst g'. unfold level_inv. cbn [g_thr g_level]. splits.
    + intros h Hh. destruct (Nat.lt_ge_cases i (length (g_thr g))).
      * rewrite nth_error_app1 in Hh by auto. auto.
      * rewrite nth_error_app2 in Hh by auto. destruct (i - length (g_thr g))%nat as [|[|?]]; try discriminate Hh. injection Hh as <-. cbn [h_sb seen_level]. apply B. now apply nth_error_None.
    + intros X. apply B. apply nth_error_None. apply nth_error_None in X. rewrite app_length in X. lia.
    + intros j h D Hh. destruct (Nat.lt_ge_cases j (length (g_thr g))).
      * rewrite nth_error_app1 in Hh by auto. eauto.
      * rewrite nth_error_app2 in Hh by auto. destruct (j - length (g_thr g))%nat as [|[|?]]; try discriminate Hh. injection Hh as <-. constructor.
  - destruct (nth_error (g_thr g) i0) as [[p sb]|] eqn:EI; [|discriminate]. destruct p; try discriminate E. apply some_inj in E. subst g'.
    unfold set_thr. fold (put i0 (Thr (PLevel s) sb) (g_thr g)). eapply level_put; eauto.
    + intros ->. exact (A _ EI).
    + intros D. split; auto. exact (C _ _ D EI).
  - destruct HS as (-> & HV). destruct (nth_error (g_thr g) i) as [[p sb]|] eqn:EI; [|discriminate]. destruct p; try discriminate E. apply some_inj in E. subst g'.
    unfold set_thr. fold (put i (Thr PIdle (sb ++ [WLevel (clamp v)])) (g_thr g)).
    assert (HI' : level_inv i (nearest v) (Reg (g_id g) (g_sites g) (g_lock g) (g_level g) (g_msgs g) (g_copies g) (put i (Thr PIdle (sb ++ [WLevel (clamp v)])) (g_thr g)))); [|exact HI'].
    unfold level_inv. cbn [g_thr g_level]. splits.
    + intros x Hx. rewrite (put_same _ i _ _ _ EI) in Hx. injection Hx as <-. cbn [h_sb]. rewrite seen_level_app. cbn [seen_level]. now apply C32_clamp_partial.
    + intros X. rewrite (put_same _ i _ _ _ EI) in X. discriminate X.
    + intros j x D Hx. rewrite (put_other _ i j _ _ _ EI D) in Hx. eauto.
  - destruct (nth_error (g_thr g) i0) as [[p sb]|] eqn:EI; [|discriminate]. destruct (thr_step sev i0 (Thr p sb) g) as [(h' & g1)|] eqn:ET; [|discriminate]. apply some_inj in E. subst g'.
    apply thr_step_level in ET. destruct ET as (T1 & T2 & r & T3 & T4). unfold set_thr. fold (put i0 h' (g_thr g1)). rewrite T1. eapply level_put; eauto.
    + intros ->. rewrite T2, T3, seen_level_app, (seen_no_level r) by auto. exact (A _ EI).
    + intros D. split; auto. rewrite T3. apply Forall_app. split; auto. exact (C _ _ D EI).
  - destruct (nth_error (g_thr g) i0) as [[p sb]|] eqn:EI; [|discriminate]. destruct sb as [|w sb]; [discriminate|]. apply some_inj in E. subst g'.
    assert (X : i0 <> i -> no_level w /\ Forall no_level sb). { intros D. specialize (C _ _ D EI). inversion C. auto. }
    unfold set_thr. destruct w; cbn [commit g_id g_sites g_lock g_level g_msgs g_copies g_thr]; fold (put i0 (Thr p sb) (g_thr g)); eapply level_put; eauto;
      try (intros ->; exact (A _ EI)); intros D; destruct (X D); try contradiction; auto.
  - destruct (g_lock g); [discriminate|]. apply some_inj in E. subst g'. exact HI.
Qed.

Lemma level_run : forall sev i ls l g g', Forall (set_by i) ls -> level_inv i l g -> g_run sev ls g = Some g' -> level_inv i (level_after ls l) g'.
Proof.
  intros sev i ls. induction ls as [|lab ls IH]; intros l g g' H HI E; cbn [g_run] in E; [apply some_inj in E; now subst g'|]. inversion H; subst.
  destruct (g_step sev lab g) as [g1|] eqn:E1; [|discriminate]. assert (HI' := level_step _ _ _ _ _ _ H2 HI E1).
  replace (level_after (lab :: ls) l) with (level_after ls (level_after [lab] l)) by (destruct lab; reflexivity). eapply IH; eauto.
Qed.

(** Thread [i] sets the level.  A statement executed by thread [j] passes the check iff its severity is at most the level last set,
    at once for the thread itself, and for others when its store has reached memory; nothing else changes. *)
Theorem C32_level_in_force : forall sev i ls g j s sb, Forall (set_by i) ls -> g_run sev ls g_init = Some g ->
  nth_error (g_thr g) j = Some (Thr (PLevel s) sb) ->
  (j = i \/ forall h, nth_error (g_thr g) i = Some h -> Forall no_level (h_sb h)) ->
  g_step sev (GStep j) g = Some (set_thr j (Thr (if sev s <=? level_after ls NOTICE then PTest s else PIdle) sb) g).
Proof.
  intros sev i ls g j s sb H R EJ HJ.
  assert (I0 : level_inv i NOTICE g_init).
  { unfold level_inv, g_init. cbn [g_thr g_level]. splits; auto; intros; destruct i; try discriminate; destruct j0; discriminate. }
  destruct (level_run _ _ _ _ _ _ H I0 R) as (A & B & C).
  assert (L : seen_level sb (g_level g) = level_after ls NOTICE).
  { destruct (Nat.eq_dec j i) as [-> | D]; [exact (A _ EJ)|]. destruct HJ as [-> | HJ]; [congruence|].
    rewrite seen_no_level by exact (C _ _ D EJ). destruct (nth_error (g_thr g) i) as [h|] eqn:EI; [|auto]. rewrite <- (A h eq_refl). symmetry. apply seen_no_level. auto. }
  cbn [g_step]. rewrite EJ. unfold thr_step. cbn [h_pc h_sb]. rewrite L. do 3 f_equal.
  destruct (sev s <=? level_after ls NOTICE) eqn:E1; [apply Z.leb_le in E1|apply Z.leb_gt in E1].
  - destruct (level_after ls NOTICE <? sev s) eqn:E2; auto. apply Z.ltb_lt in E2. lia.
  - destruct (level_after ls NOTICE <? sev s) eqn:E2; auto. apply Z.ltb_ge in E2. lia.
Qed.
Print Assumptions C32_level_in_force.

(** The statements that pass the check in a run. *)
Definition passed (sev : Z -> Z) (l : glabel) (g : reg) : list Z :=
  match l with
  | GStep j => match nth_error (g_thr g) j with Some (Thr (PLevel s) sb) => if sev s <=? seen_level sb (g_level g) then [s] else [] | _ => [] end
  | _ => []
  end.

Fixpoint passes (sev : Z -> Z) (ls : list glabel) (g : reg) : list Z :=
  match ls with [] => [] | l :: r => passed sev l g ++ match g_step sev l g with Some g' => passes sev r g' | None => [] end end.

(** Those of one thread that are on the way. *)
Definition messages_in (sb : list wr) : list Z := flat_map (fun w => match w with WMsg s _ => [s] | _ => [] end) sb.
Definition on_way (h : thr) : list Z :=
  match h_pc h with PIdle | PLevel _ => [] | PTest s | PLock s | PIn s | PAssign s | PPush s | PUnlock s | PRead s => [s] end ++ messages_in (h_sb h).

Lemma put_split : forall A i (x y : A) l, nth_error l i = Some y -> exists a b, l = a ++ y :: b /\ put i x l = a ++ x :: b.
Proof.
  unfold put. induction i; intros x y [|z l] H; try discriminate H; cbn in *.
  - injection H as ->. exists [], l. auto.
  - destruct (IHi x y l H) as (a & b & -> & E). exists (z :: a), b. split; auto. cbn. now rewrite E.
Qed.

Lemma way_put : forall i h h' l m new, nth_error l i = Some h -> Permutation (m ++ on_way h') (on_way h ++ new) ->
  Permutation (m ++ flat_map on_way (put i h' l)) (flat_map on_way l ++ new).
Proof.
  intros i h h' l m new E P. destruct (put_split _ i h' h l E) as (a & b & -> & ->). rewrite !flat_map_app. cbn [flat_map].
  transitivity (flat_map on_way a ++ (m ++ on_way h') ++ flat_map on_way b).
  - rewrite <- !app_assoc. apply Permutation_app_swap_app.
  - rewrite P. rewrite <- !app_assoc. apply Permutation_app_head, Permutation_app_head, Permutation_app_comm.
Qed.

Lemma messages_app : forall a b, messages_in (a ++ b) = messages_in a ++ messages_in b.
Proof. intros. apply flat_map_app. Qed.

Lemma passes_step : forall sev l g g', g_step sev l g = Some g' ->
  Permutation (map fst (g_msgs g') ++ flat_map on_way (g_thr g')) (map fst (g_msgs g) ++ flat_map on_way (g_thr g) ++ passed sev l g).
Proof.
  intros sev l g g' E. destruct l; cbn [g_step passed] in *.
  - apply some_inj in E. subst g'. cbn [g_msgs g_thr]. rewrite flat_map_app. cbn. rewrite !app_nil_r. reflexivity.
  - destruct (nth_error (g_thr g) i) as [[p sb]|] eqn:EI; [|discriminate]. destruct p; try discriminate E. apply some_inj in E. subst g'.
    cbn [set_thr g_msgs g_thr]. apply Permutation_app_head. apply (way_put i _ _ _ [] []  EI). cbn. now rewrite app_nil_r.
  - destruct (nth_error (g_thr g) i) as [[p sb]|] eqn:EI; [|discriminate]. destruct p; try discriminate E. apply some_inj in E. subst g'.
    cbn [set_thr g_msgs g_thr]. apply Permutation_app_head. apply (way_put i _ _ _ [] []  EI). unfold on_way. cbn [h_pc h_sb app]. rewrite messages_app. reflexivity.
  - destruct (nth_error (g_thr g) i) as [[p sb]|] eqn:EI; [|discriminate]. destruct (thr_step sev i (Thr p sb) g) as [(h' & g1)|] eqn:ET; [|discriminate]. apply some_inj in E. subst g'.
    assert (X : g_msgs g1 = g_msgs g /\ g_thr g1 = g_thr g /\ Permutation (on_way h') (on_way (Thr p sb) ++ match p with PLevel s => if sev s <=? seen_level sb (g_level g) then [s] else [] | _ => [] end)).
    { unfold thr_step in ET. cbn [h_pc h_sb] in ET. unfold on_way. cbn [h_pc h_sb].
      destruct p; try discriminate ET; try (apply some_inj in ET; injection ET as <- <-; cbn [h_pc h_sb]; rewrite ?messages_app; splits; [auto|auto|]).
      - destruct (sev s <=? seen_level sb (g_level g)) eqn:E1; [apply Z.leb_le in E1|apply Z.leb_gt in E1]; destruct (seen_level sb (g_level g) <? sev s) eqn:E2;
          try (apply Z.ltb_lt in E2; lia); try (apply Z.ltb_ge in E2; lia); cbn [app].
        + apply Permutation_cons_append.
        + now rewrite app_nil_r.
      - rewrite app_nil_r. destruct (_ =? _); reflexivity.
      - destruct sb; [|discriminate]. destruct (g_lock g); [discriminate|]. apply some_inj in ET. injection ET as <- <-. cbn. auto.
      - rewrite app_nil_r. destruct (_ =? _); reflexivity.
      - cbn. now rewrite !app_nil_r.
      - cbn. now rewrite !app_nil_r.
      - cbn. now rewrite !app_nil_r.
      - cbn [app messages_in flat_map]. rewrite app_nil_r. symmetry. apply Permutation_cons_append. }
    destruct X as (X1 & X2 & X3). cbn [set_thr g_msgs g_thr]. rewrite X1, X2. apply Permutation_app_head. apply (way_put i _ _ _ [] _ EI). destruct p; exact X3.
  - destruct (nth_error (g_thr g) i) as [[p sb]|] eqn:EI; [|discriminate]. destruct sb as [|w sb]; [discriminate|]. apply some_inj in E. subst g'. rewrite app_nil_r.
    assert (Y : forall m, m = match w with WMsg s _ => [s] | _ => [] end -> Permutation (m ++ flat_map on_way (put i (Thr p sb) (g_thr g))) (flat_map on_way (g_thr g))).
    { intros m ->. rewrite <- (app_nil_r (flat_map on_way (g_thr g))). apply (way_put i _ _ _ _ [] EI). rewrite app_nil_r. unfold on_way. cbn [h_pc h_sb]. destruct w; try reflexivity.
      cbn [messages_in flat_map]. apply Permutation_app_swap_app. }
    specialize (Y _ eq_refl). destruct w; cbn [commit set_thr g_msgs g_thr]; try (apply Permutation_app_head; exact Y).
    rewrite map_app, <- app_assoc. apply Permutation_app_head. exact Y.
  - destruct (g_lock g); [discriminate|]. apply some_inj in E. subst g'. cbn [g_msgs g_thr]. now rewrite app_nil_r.
Qed.

(** The messages published and on the way are exactly those of the statements that passed. *)
Theorem C32_recorded : forall sev ls g, g_run sev ls g_init = Some g ->
  Permutation (passes sev ls g_init) (map fst (g_msgs g) ++ flat_map on_way (g_thr g)).
Proof.
  assert (H : forall sev ls g g', g_run sev ls g = Some g' ->
    Permutation (map fst (g_msgs g') ++ flat_map on_way (g_thr g')) (map fst (g_msgs g) ++ flat_map on_way (g_thr g) ++ passes sev ls g)).
  { intros sev. induction ls as [|l ls IH]; intros g g' E; cbn [g_run passes] in *; [apply some_inj in E; subst; now rewrite app_nil_r|].
    destruct (g_step sev l g) as [g1|] eqn:E1; [|discriminate]. rewrite (IH _ _ E). apply passes_step in E1. rewrite !app_assoc in *. now apply Permutation_app_tail. }
  intros sev ls g E. symmetry. apply (H _ _ _ _ E).
Qed.
Print Assumptions C32_recorded.

(** Thread 0 sets WARNING: its statement 7 of severity NOTICE is dropped at once; thread 1, to which the store has not
    come through, still records it; later it does not. *)
Definition by_site (s : Z) : Z := if s =? 7 then NOTICE else 1.
Example C32_instance :
  let ls := [GNew; GNew; GSet 0 2; GCall 0 7; GStep 0; GCall 0 8] ++ steps 0 2 ++ [GCall 1 7] ++ steps 1 2 ++ [GCommit 0] ++ steps 0 6 ++ repeat (GCommit 0) 4 ++
    steps 1 6 ++ repeat (GCommit 1) 4 ++ [GCall 1 7; GStep 1] in
  match g_run by_site ls g_init with
  | Some g => passes by_site ls g_init = [8; 7] /\ g_msgs g = [(8, 0); (7, 1)] /\ g_level g = 2
  | None => False
  end.
Proof. vm_compute. splits; reflexivity. Qed.
