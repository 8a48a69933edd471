(** Invariant of the assignment of ids. *)
From Verif Require Import Base BaseProofs DecodeProofs RingProofs Register.

Ltac Zify.zify_post_hook ::= Z.div_mod_to_equations.

(** ** Definitions *)

Definition inv_tab (ids : Z -> Z) (sites : list Z) : Prop :=
  NoDup sites /\ forall s, (ids s = UNASSIGNED /\ ~ In s sites) \/ exists k, ids s = Z.of_nat k /\ nth_error sites k = Some s.

(** [s] has its id but is not yet in the list. *)
Definition inv_half (ids : Z -> Z) (sites : list Z) (s : Z) : Prop := ids s = zlen sites /\ inv_tab (upd ids s UNASSIGNED) sites.

Definition soft (w : wr) : Prop := match w with WLevel _ | WMsg _ _ => True | _ => False end.
Definition outside (p : pc) : Prop := match p with PIn _ | PAssign _ | PPush _ | PUnlock _ => False | _ => True end.

(** The thread that holds the lock, or whose release of it has not reached memory. *)
Inductive phase (ids : Z -> Z) (sites : list Z) : thr -> Prop :=
| ph_in s : inv_tab ids sites -> phase ids sites (Thr (PIn s) [])
| ph_assign s : inv_tab ids sites -> ids s = UNASSIGNED -> phase ids sites (Thr (PAssign s) [])
| ph_id0 s : inv_tab ids sites -> ids s = UNASSIGNED -> phase ids sites (Thr (PPush s) [WId s (zlen sites)])
| ph_id1 s : inv_tab ids sites -> ids s = UNASSIGNED -> phase ids sites (Thr (PUnlock s) [WId s (zlen sites); WPush s])
| ph_id2 s p r : inv_tab ids sites -> ids s = UNASSIGNED -> outside p -> Forall soft r -> phase ids sites (Thr p (WId s (zlen sites) :: WPush s :: WUnlock :: r))
| ph_push0 s : inv_half ids sites s -> phase ids sites (Thr (PPush s) [])
| ph_push1 s : inv_half ids sites s -> phase ids sites (Thr (PUnlock s) [WPush s])
| ph_push2 s p r : inv_half ids sites s -> outside p -> Forall soft r -> phase ids sites (Thr p (WPush s :: WUnlock :: r))
| ph_unl1 s : inv_tab ids sites -> ids s <> UNASSIGNED -> phase ids sites (Thr (PUnlock s) [])
| ph_unl2 p r : inv_tab ids sites -> outside p -> Forall soft r -> phase ids sites (Thr p (WUnlock :: r)).

(** What a thread outside the block is like. *)
Definition free (h : thr) : Prop := outside (h_pc h) /\ Forall soft (h_sb h).

(** What holds of every thread. *)
Definition read_ok (ids : Z -> Z) (h : thr) : Prop :=
  (forall s, h_pc h = PRead s -> seen_id (h_sb h) ids s <> UNASSIGNED) /\
  (forall a s v b, h_sb h = a ++ WMsg s v :: b -> v <> UNASSIGNED /\ seen_id a ids s = v).

Definition site_of (p : pc) : option Z :=
  match p with PIdle => None | PLevel s | PTest s | PLock s | PIn s | PAssign s | PPush s | PUnlock s | PRead s => Some s end.

Definition range_ok (N : Z) (h : thr) : Prop :=
  (forall s, site_of (h_pc h) = Some s -> 0 <= s < N) /\ (forall s, In (WPush s) (h_sb h) -> 0 <= s < N).

Definition inv_lock (ids : Z -> Z) (sites : list Z) (l : option nat) (ts : list thr) : Prop :=
  match l with
  | None => inv_tab ids sites /\ Forall free ts
  | Some i => (exists h, nth_error ts i = Some h /\ phase ids sites h) /\ forall j h, j <> i -> nth_error ts j = Some h -> free h
  end.

Definition reg_inv (N : Z) (g : reg) : Prop :=
  inv_lock (g_id g) (g_sites g) (g_lock g) (g_thr g) /\
  Forall (read_ok (g_id g)) (g_thr g) /\
  Forall (range_ok N) (g_thr g) /\ Forall (fun s => 0 <= s < N) (g_sites g) /\
  (forall s v, In (s, v) (g_msgs g) -> v <> UNASSIGNED /\ g_id g s = v) /\
  Forall (fun c => exists r, g_sites g = c ++ r) (g_copies g).

(** ** Lists *)

Definition put {A} (i : nat) (x : A) (l : list A) : list A := firstn i l ++ x :: skipn (S i) l.

Lemma put_same : forall A i (x y : A) l, nth_error l i = Some y -> nth_error (put i x l) i = Some x.
Proof. unfold put. induction i; intros x y [|a l] H; try discriminate H; cbn; auto. eapply IHi; eauto. Qed.

Lemma put_other : forall A i j (x y : A) l, nth_error l i = Some y -> j <> i -> nth_error (put i x l) j = nth_error l j.
Proof.
  unfold put. induction i; intros j x y [|a l] H N; try discriminate H.
  - destruct j; [congruence|]. reflexivity.
  - destruct j; cbn; auto. eapply IHi; eauto.
Qed.

Lemma put_Forall : forall A (P : A -> Prop) i x l, Forall P l -> P x -> Forall P (put i x l).
Proof. unfold put. induction i; intros x l H Hx; inversion H; subst; cbn; try (constructor; auto; fail). - constructor; auto. apply IHi; auto. Qed.

Lemma nth_Forall : forall A (P : A -> Prop) i x l, Forall P l -> nth_error l i = Some x -> P x.
Proof. intros A P i x l H E. eapply Forall_forall; eauto. eapply nth_error_In; eauto. Qed.

(** ** The table *)

Definition le_ids (m m' : Z -> Z) : Prop := forall s, m s <> UNASSIGNED -> m' s = m s.

Lemma le_refl : forall m, le_ids m m.
Proof. intros m s _. reflexivity. Qed.

Lemma seen_mono : forall sb m m' s, le_ids m m' -> seen_id sb m s <> UNASSIGNED -> seen_id sb m' s = seen_id sb m s.
Proof.
  induction sb as [|w sb IH]; intros m m' s H N; cbn [seen_id] in *; [now apply H|]. apply IH; auto. destruct w; auto.
  intros b. unfold upd. destruct (b =? s0); auto.
Qed.

Lemma read_mono : forall m m' h, le_ids m m' -> read_ok m h -> read_ok m' h.
Proof.
  intros m m' h H (A & B). split.
  - intros s E. rewrite (seen_mono _ m m'); auto.
  - intros a s v b E. destruct (B a s v b E) as (B1 & B2). split; auto. rewrite (seen_mono _ m m'); auto. congruence.
Qed.

Lemma seen_app : forall a b m s, seen_id (a ++ b) m s = seen_id b (fun x => seen_id a m x) s.
Proof.
  induction a as [|w a IH]; intros b m s; cbn [seen_id app]; [reflexivity|]. destruct w; rewrite IH; reflexivity.
Qed.

Lemma seen_soft : forall sb m s, Forall soft sb -> seen_id sb m s = m s.
Proof. induction sb as [|w sb IH]; intros m s H; inversion H; subst; cbn [seen_id]; auto. destruct w; try contradiction; auto. Qed.

Lemma read_commit : forall m p w sb, read_ok m (Thr p (w :: sb)) -> read_ok (match w with WId s v => upd m s v | _ => m end) (Thr p sb).
Proof.
  intros m p w sb (A & B). cbn [h_pc h_sb] in *. split; cbn [h_pc h_sb].
  - intros s E. specialize (A s E). cbn [seen_id] in A. now destruct w.
  - intros a s v b E. specialize (B (w :: a) s v b). cbn [seen_id app] in B. rewrite E in B. specialize (B eq_refl). now destruct w.
Qed.

(** A store that is not a message changes nothing for the messages before it. *)
Lemma read_add : forall m p p' sb w, read_ok m (Thr p sb) ->
  (forall s, p' = PRead s -> seen_id (sb ++ [w]) m s <> UNASSIGNED) ->
  (forall s v, w = WMsg s v -> v <> UNASSIGNED /\ seen_id sb m s = v) -> read_ok m (Thr p' (sb ++ [w])).
Proof.
  intros m p p' sb w (A & B) H1 H2. split; cbn [h_pc h_sb] in *; [exact H1|].
  intros a s v b E. destruct (exists_last (l := WMsg s v :: b) ltac:(discriminate)) as (b' & x & EX).
  rewrite EX, app_assoc in E. apply app_inj_tail in E. destruct E as (E1 & E2). subst x.
  destruct b' as [|y b'].
  - cbn [app] in EX. injection EX as EX EB. rewrite app_nil_r in E1. rewrite <- E1. apply H2. congruence.
  - cbn [app] in EX. injection EX as EX EB. subst y. eapply B. exact E1.
Qed.

Lemma read_pc : forall m p p' sb, read_ok m (Thr p sb) -> (forall s, p' = PRead s -> seen_id sb m s <> UNASSIGNED) -> read_ok m (Thr p' sb).
Proof. intros m p p' sb (A & B) H. split; auto. Qed.

Lemma zlen_nat : forall (l : list Z), zlen l = Z.of_nat (length l).
Proof. reflexivity. Qed.

Lemma zlen_assigned : forall (l : list Z), zlen l <> UNASSIGNED.
Proof. intros l. unfold zlen, UNASSIGNED. lia. Qed.

Lemma half_id : forall ids sites s, inv_tab ids sites -> ids s = UNASSIGNED -> inv_half (upd ids s (zlen sites)) sites s.
Proof.
  intros ids sites s (N & H) E. split; [unfold upd; now rewrite Z.eqb_refl|]. split; auto. intros a. specialize (H a). unfold upd in *.
  destruct (a =? s) eqn:EA; auto. apply Z.eqb_eq in EA. subst a. left. destruct H as [H | (k & H & _)]; [tauto|]. unfold UNASSIGNED in *. lia.
Qed.

Lemma half_push : forall ids sites s, inv_half ids sites s -> inv_tab ids (sites ++ [s]).
Proof.
  intros ids sites s (E & N & H).
  assert (NI : ~ In s sites). { specialize (H s). unfold upd in H. rewrite Z.eqb_refl in H. destruct H as [H | (k & H & _)]; [tauto|]. unfold UNASSIGNED in *. lia. }
  split.
  - rewrite <- (rev_involutive (sites ++ [s])). apply NoDup_rev. rewrite rev_app_distr. cbn. constructor; [now rewrite <- in_rev|now apply NoDup_rev].
  - intros a. destruct (Z.eq_dec a s) as [-> | D].
    + right. exists (length sites). split; [exact E|]. rewrite nth_error_app2, Nat.sub_diag by lia. reflexivity.
    + specialize (H a). unfold upd in H. destruct (a =? s) eqn:EA; [apply Z.eqb_eq in EA; congruence|]. destruct H as [(H1 & H2) | (k & H1 & H2)].
      * left. split; auto. intros HI. apply in_app_or in HI. destruct HI as [|[|[]]]; congruence.
      * right. exists k. split; auto. rewrite nth_error_app1; auto. apply nth_error_Some. congruence.
Qed.

Lemma tab_le : forall ids s v, ids s = UNASSIGNED -> le_ids ids (upd ids s v).
Proof. intros ids s v E a N. unfold upd. destruct (a =? s) eqn:EA; auto. apply Z.eqb_eq in EA. congruence. Qed.

Lemma range_length : forall N (l : list Z), 0 <= N -> NoDup l -> Forall (fun s => 0 <= s < N) l -> zlen l <= N.
Proof.
  intros N l H D F.
  assert (I : incl l (map Z.of_nat (seq 0 (Z.to_nat N)))).
  { intros a Ha. eapply Forall_forall in F; eauto. cbv beta in F. rewrite <- (Z2Nat.id a) by lia. apply in_map, in_seq. lia. }
  apply NoDup_incl_length in I; auto. rewrite map_length, seq_length in I. unfold zlen. lia.
Qed.

Lemma to_s_small : forall n, 0 <= n < 2 ^ 31 -> to_s 32 n = n.
Proof. intros n H. unfold to_s. change (2 ^ 32) with 4294967296. change (2 ^ (32 - 1)) with 2147483648. change (2 ^ 31) with 2147483648 in H. rewrite Z.mod_small by lia. destruct (n <? 2147483648) eqn:E; [reflexivity|]. apply Z.ltb_ge in E. lia. Qed.

(** ** Steps *)

Definition calls_ok (N : Z) (l : glabel) : Prop := match l with GCall _ s => 0 <= s < N | _ => True end.

(** Thread [i] is replaced and the table grows. *)
Lemma inv_put : forall N g i h h' ids sites l level msgs copies,
  reg_inv N g -> nth_error (g_thr g) i = Some h -> le_ids (g_id g) ids ->
  inv_lock ids sites l (put i h' (g_thr g)) -> read_ok ids h' -> range_ok N h' ->
  Forall (fun s => 0 <= s < N) sites ->
  (forall s v, In (s, v) msgs -> In (s, v) (g_msgs g) \/ v <> UNASSIGNED /\ ids s = v) ->
  Forall (fun c => exists r, sites = c ++ r) copies ->
  reg_inv N (Reg ids sites l level msgs copies (put i h' (g_thr g))).
Proof.
  intros N g i h h' ids sites l level msgs copies (_ & B & C & D & E & F) HI LE HL HR HG HS HM HC. unfold reg_inv. cbn [g_id g_sites g_lock g_thr g_msgs g_copies]. splits; auto.
  - apply put_Forall; auto. eapply Forall_impl; [|exact B]. intros a Ha. eapply read_mono; eauto.
  - apply put_Forall; auto.
  - intros s v HV. destruct (HM s v HV) as [X | X]; auto. destruct (E s v X) as (E1 & E2). split; auto. rewrite LE; congruence.
Qed.

Lemma lock_free_put : forall ids sites i h h' ts, inv_lock ids sites None ts -> nth_error ts i = Some h -> free h' -> inv_lock ids sites None (put i h' ts).
Proof. intros ids sites i h h' ts (A & B) HI HF. split; auto. now apply put_Forall. Qed.

Lemma lock_held_put : forall ids sites ids' sites' i h h' ts, inv_lock ids sites (Some i) ts -> nth_error ts i = Some h -> phase ids' sites' h' -> inv_lock ids' sites' (Some i) (put i h' ts).
Proof.
  intros ids sites ids' sites' i h h' ts (_ & B) HI HP. split.
  - exists h'. split; auto. eapply put_same; eauto.
  - intros j x D E. rewrite (put_other _ i j h' h) in E; eauto.
Qed.

Lemma lock_other_put : forall ids sites i k h h' ts, inv_lock ids sites (Some k) ts -> i <> k -> nth_error ts i = Some h -> free h' -> inv_lock ids sites (Some k) (put i h' ts).
Proof.
  intros ids sites i k h h' ts ((x & A1 & A2) & B) D HI HF. split.
  - exists x. split; auto. rewrite (put_other _ i k h' h); eauto.
  - intros j y Dj E. destruct (Nat.eq_dec j i) as [-> | Dji].
    + rewrite (put_same _ i h' h) in E by auto. congruence.
    + rewrite (put_other _ i j h' h) in E; eauto.
Qed.

Lemma lock_release : forall ids sites i h h' ts, inv_lock ids sites (Some i) ts -> nth_error ts i = Some h -> inv_tab ids sites -> free h' -> inv_lock ids sites None (put i h' ts).
Proof.
  intros ids sites i h h' ts (_ & B) HI HT HF. split; auto. apply Forall_forall. intros x Hx. apply In_nth_error in Hx. destruct Hx as (j & Hj).
  destruct (Nat.eq_dec j i) as [-> | D].
  - rewrite (put_same _ i h' h) in Hj by auto. congruence.
  - rewrite (put_other _ i j h' h) in Hj; eauto.
Qed.

Lemma lock_take : forall ids sites i h h' ts, inv_lock ids sites None ts -> nth_error ts i = Some h -> phase ids sites h' -> inv_lock ids sites (Some i) (put i h' ts).
Proof.
  intros ids sites i h h' ts (A & B) HI HP. split.
  - exists h'. split; auto. eapply put_same; eauto.
  - intros j x D E. rewrite (put_other _ i j h' h) in E; eauto. eapply nth_Forall; eauto.
Qed.

(** A change that leaves a thread in the block in its place and is allowed outside. *)
Lemma lock_soft_put : forall ids sites l i p p' sb r ts, inv_lock ids sites l ts -> nth_error ts i = Some (Thr p sb) ->
  outside p -> outside p' -> Forall soft r -> inv_lock ids sites l (put i (Thr p' (sb ++ r)) ts).
Proof.
  intros ids sites l i p p' sb r ts H HI HO HO' HR.
  assert (FR : free (Thr p sb) -> free (Thr p' (sb ++ r))). { intros (F1 & F2). split; auto. apply Forall_app. auto. }
  destruct l as [k|].
  - destruct (Nat.eq_dec k i) as [-> | D].
    + pose proof H as ((x & A1 & A2) & B). rewrite HI in A1. injection A1 as <-. eapply lock_held_put; eauto.
      inversion A2; subst; try contradiction HO; cbn [app].
      * apply ph_id2; auto. apply Forall_app. auto.
      * apply ph_push2; auto. apply Forall_app. auto.
      * apply ph_unl2; auto. apply Forall_app. auto.
    + eapply lock_other_put; eauto. apply FR. destruct H as (_ & B). eapply B; eauto.
  - eapply lock_free_put; eauto. apply FR. destruct H as (_ & B). eapply nth_Forall; eauto.
Qed.

(** The thread at a point inside the block holds the lock. *)
Lemma inside_holder : forall ids sites l ts i h, inv_lock ids sites l ts -> nth_error ts i = Some h -> ~ outside (h_pc h) -> l = Some i /\ phase ids sites h.
Proof.
  intros ids sites l ts i h H HI HN. destruct l as [k|].
  - destruct H as ((x & A1 & A2) & B). destruct (Nat.eq_dec i k) as [-> | D]; [split; congruence|]. destruct (B i h D HI). contradiction.
  - destruct H as (_ & B). eapply nth_Forall in B; eauto. destruct B. contradiction.
Qed.

Lemma range_pc : forall N p p' sb, range_ok N (Thr p sb) -> (forall s, site_of p' = Some s -> site_of p = Some s) -> range_ok N (Thr p' sb).
Proof. intros N p p' sb (A & B) H. split; cbn [h_pc h_sb] in *; auto. Qed.

Lemma range_add : forall N p p' sb w, range_ok N (Thr p sb) -> (forall s, site_of p' = Some s -> site_of p = Some s) ->
  (forall s, w = WPush s -> site_of p = Some s) -> range_ok N (Thr p' (sb ++ [w])).
Proof.
  intros N p p' sb w (A & B) H1 H2. split; cbn [h_pc h_sb] in *; auto. intros s HI. apply in_app_or in HI. destruct HI as [HI | [HI | []]]; auto.
Qed.

Ltac ip HI EI IS M0 IC := eapply inv_put; [exact HI|exact EI|apply le_refl| | | |exact IS|exact M0|exact IC].

Lemma step_inv : forall N sev l g g', N <= 2 ^ 31 -> reg_inv N g -> calls_ok N l -> g_step sev l g = Some g' -> reg_inv N g'.
Proof.
  intros N sev l g g' HN HI HO E. pose proof HI as (IL & IR & IG & IS & IM & IC).
  assert (M0 : forall s v, In (s, v) (g_msgs g) -> In (s, v) (g_msgs g) \/ v <> UNASSIGNED /\ g_id g s = v) by auto.
  destruct l; cbn [g_step] in E.
  - (* GNew *) apply some_inj in E. subst g'. unfold reg_inv. cbn [g_id g_sites g_lock g_thr g_msgs g_copies].
    assert (FN : free (Thr PIdle [])) by (split; [exact I|constructor]). splits; auto.
    + destruct (g_lock g) as [i|]; cbn [inv_lock] in *.
      * destruct IL as ((h & A1 & A2) & B). split.
        -- exists h. split; auto. rewrite nth_error_app1; auto. apply nth_error_Some. congruence.
        -- intros j x D Hj. destruct (Nat.lt_ge_cases j (length (g_thr g))).
           ++ rewrite nth_error_app1 in Hj by auto. eauto.
           ++ rewrite nth_error_app2 in Hj by auto. destruct (j - length (g_thr g))%nat as [|[|?]]; try discriminate Hj. injection Hj as <-. auto.
      * destruct IL as (A & B). split; auto. apply Forall_app. auto.
    + apply Forall_app. split; auto. constructor; auto. split; cbn [h_pc h_sb]; [discriminate|]. intros [|? ?] s v b X; discriminate X.
    + apply Forall_app. split; auto. constructor; auto. split; cbn [h_pc h_sb]; [discriminate|intros s []].
  - (* GCall *) destruct (nth_error (g_thr g) i) as [[p sb]|] eqn:EI; [|discriminate]. destruct p; try discriminate E. apply some_inj in E. subst g'.
    unfold set_thr. fold (put i (Thr (PLevel s) sb) (g_thr g)). ip HI EI IS M0 IC.
    + rewrite <- (app_nil_r sb). eapply lock_soft_put; eauto; exact I.
    + eapply read_pc; [eapply nth_Forall; eauto|]. discriminate.
    + pose proof (nth_Forall _ _ _ _ _ IG EI) as (R1 & R2). split; cbn [h_pc h_sb site_of] in *; auto. intros a X. injection X as <-. exact HO.
  - (* GSet *) destruct (nth_error (g_thr g) i) as [[p sb]|] eqn:EI; [|discriminate]. destruct p; try discriminate E. apply some_inj in E. subst g'.
    unfold set_thr. fold (put i (Thr PIdle (sb ++ [WLevel (clamp v)])) (g_thr g)). ip HI EI IS M0 IC.
    + eapply lock_soft_put; eauto; try exact I; repeat constructor.
    + eapply read_add; [eapply nth_Forall; eauto| |]; discriminate.
    + eapply range_add; [eapply nth_Forall; eauto| |]; auto; discriminate.
  - (* GStep *) destruct (nth_error (g_thr g) i) as [[p sb]|] eqn:EI; [|discriminate].
    destruct (thr_step sev i (Thr p sb) g) as [(h' & g1)|] eqn:ET; [|discriminate]. apply some_inj in E. subst g'.
    pose proof (nth_Forall _ _ _ _ _ IR EI) as RD. pose proof (nth_Forall _ _ _ _ _ IG EI) as RG.
    unfold thr_step in ET. cbn [h_pc h_sb] in ET. unfold set_thr. fold (put i h' (g_thr g1)). destruct p; try discriminate ET.
    + apply some_inj in ET. injection ET as <- <-. ip HI EI IS M0 IC.
      * rewrite <- (app_nil_r sb). eapply lock_soft_put; eauto; try exact I; destruct (_ <? _); exact I.
      * eapply read_pc; eauto. destruct (_ <? _); discriminate.
      * eapply range_pc; eauto. destruct (_ <? _); [discriminate|auto].
    + apply some_inj in ET. injection ET as <- <-. ip HI EI IS M0 IC.
      * rewrite <- (app_nil_r sb). eapply lock_soft_put; eauto; try exact I; destruct (_ =? _); exact I.
      * eapply read_pc; eauto. intros a X. destruct (_ =? _) eqn:EQ; [discriminate X|]. injection X as <-. now apply Z.eqb_neq.
      * eapply range_pc; eauto. destruct (_ =? _); auto.
    + destruct sb as [|w sb]; [|discriminate]. destruct (g_lock g) eqn:EL; [discriminate|]. apply some_inj in ET. injection ET as <- <-.
      cbn [set_lock g_id g_sites g_lock g_level g_msgs g_copies g_thr]. ip HI EI IS M0 IC.
      * eapply lock_take; eauto. constructor. now destruct IL.
      * eapply read_pc; eauto. discriminate.
      * eapply range_pc; eauto.
    + destruct (inside_holder _ _ _ _ _ _ IL EI ltac:(auto)) as (EL & PH). rewrite EL in IL. apply some_inj in ET. injection ET as <- <-. ip HI EI IS M0 IC.
      * rewrite EL. eapply lock_held_put; eauto. inversion PH; subst; [|contradiction..]. cbn [seen_id]. destruct (_ =? _) eqn:EQ; constructor; auto; [now apply Z.eqb_eq|now apply Z.eqb_neq].
      * eapply read_pc; eauto. destruct (_ =? _); discriminate.
      * eapply range_pc; eauto. destruct (_ =? _); auto.
    + destruct (inside_holder _ _ _ _ _ _ IL EI ltac:(auto)) as (EL & PH). rewrite EL in IL. apply some_inj in ET. injection ET as <- <-. 
      assert (X : sb = [] /\ inv_tab (g_id g) (g_sites g) /\ g_id g s = UNASSIGNED) by (inversion PH; subst; auto; contradiction). destruct X as (-> & H0 & H1). cbn [seen_size app].
      assert (TS : to_s 32 (zlen (g_sites g)) = zlen (g_sites g)).
      { assert (X := half_push _ _ _ (half_id _ _ _ H0 H1)). destruct X as (X & _). assert (RS := proj1 RG s eq_refl). apply (range_length N) in X.
        - unfold zlen in X. rewrite app_length in X. cbn [length] in X. apply to_s_small. unfold zlen. lia.
        - lia.
        - apply Forall_app. split; auto. }
      rewrite TS. ip HI EI IS M0 IC.
      * rewrite EL. eapply lock_held_put; eauto. now constructor.
      * change [WId s (zlen (g_sites g))] with ([] ++ [WId s (zlen (g_sites g))]). eapply read_add; eauto; discriminate.
      * change [WId s (zlen (g_sites g))] with ([] ++ [WId s (zlen (g_sites g))]). eapply range_add; eauto. discriminate.
    + destruct (inside_holder _ _ _ _ _ _ IL EI ltac:(auto)) as (EL & PH). rewrite EL in IL. apply some_inj in ET. injection ET as <- <-. ip HI EI IS M0 IC.
      * rewrite EL. eapply lock_held_put; eauto. inversion PH; subst; try contradiction; cbn [app]; now constructor.
      * eapply read_add; eauto; discriminate.
      * eapply range_add; eauto. intros a X. injection X as <-. reflexivity.
    + destruct (inside_holder _ _ _ _ _ _ IL EI ltac:(auto)) as (EL & PH). rewrite EL in IL. apply some_inj in ET. injection ET as <- <-. ip HI EI IS M0 IC.
      * rewrite EL. eapply lock_held_put; eauto. inversion PH; subst; try contradiction; cbn [app]; constructor; auto; exact I.
      * eapply read_add; eauto; [|discriminate]. intros a X. injection X as <-. inversion PH; subst; try contradiction; cbn [app seen_id].
        -- unfold upd. rewrite Z.eqb_refl. apply zlen_assigned.
        -- match goal with H : inv_half _ _ _ |- _ => destruct H as (-> & _) end. apply zlen_assigned.
        -- assumption.
      * eapply range_add; eauto. discriminate.
    + apply some_inj in ET. injection ET as <- <-. ip HI EI IS M0 IC.
      * eapply lock_soft_put; eauto; try exact I; repeat constructor.
      * eapply read_add; eauto; [discriminate|]. intros a v X. injection X as <- <-. split; auto. destruct RD as (RD & _). apply RD. reflexivity.
      * eapply range_add; eauto; discriminate.
  - (* GCommit *) destruct (nth_error (g_thr g) i) as [[p sb]|] eqn:EI; [|discriminate]. destruct sb as [|w sb]; [discriminate|]. apply some_inj in E. subst g'.
    pose proof (nth_Forall _ _ _ _ _ IR EI) as RD. pose proof (nth_Forall _ _ _ _ _ IG EI) as RG. pose proof (read_commit _ _ _ _ RD) as RD'.
    assert (RG' : range_ok N (Thr p sb)). { destruct RG as (R1 & R2). split; auto. intros s X. apply R2. now right. }
    assert (HD : ~ soft w -> g_lock g = Some i /\ phase (g_id g) (g_sites g) (Thr p (w :: sb))).
    { intros NS. destruct (g_lock g) as [k|].
      - destruct IL as ((x & A1 & A2) & B). destruct (Nat.eq_dec i k) as [-> | D]; [split; congruence|]. destruct (B i _ D EI) as (_ & F). inversion F. contradiction.
      - destruct IL as (_ & B). destruct (nth_Forall _ _ _ _ _ B EI) as (_ & F). inversion F. contradiction. }
    assert (SF : soft w -> inv_lock (g_id g) (g_sites g) (g_lock g) (put i (Thr p sb) (g_thr g))).
    { intros S. destruct (g_lock g) as [k|].
      - destruct (Nat.eq_dec k i) as [-> | D].
        + pose proof IL as ((x & A1 & A2) & B). rewrite EI in A1. injection A1 as <-. inversion A2; subst; try contradiction S.
        + eapply lock_other_put; eauto. destruct IL as (_ & B). destruct (B i _ (not_eq_sym D) EI) as (F1 & F2). inversion F2. split; auto.
      - eapply lock_free_put; eauto. destruct IL as (_ & B). destruct (nth_Forall _ _ _ _ _ B EI) as (F1 & F2). inversion F2. split; auto. }
    unfold set_thr. destruct w; cbn [commit g_id g_sites g_lock g_level g_msgs g_copies g_thr] in *; fold (put i (Thr p sb) (g_thr g)).
    + destruct (HD ltac:(auto)) as (EL & PH). rewrite EL in *.
      assert (X : g_id g s = UNASSIGNED /\ v = zlen (g_sites g) /\ inv_tab (g_id g) (g_sites g)) by (inversion PH; subst; auto). destruct X as (X1 & X2 & X3).
      eapply inv_put; [exact HI|exact EI|now apply tab_le| |exact RD'|exact RG'|exact IS| |exact IC].
      * eapply lock_held_put; eauto. subst v. assert (HF := half_id _ _ _ X3 X1). inversion PH; subst; now constructor.
      * intros a b Hab. left. exact Hab.
    + destruct (HD ltac:(auto)) as (EL & PH). rewrite EL in *.
      assert (X : inv_half (g_id g) (g_sites g) s) by (inversion PH; subst; auto).
      eapply inv_put; [exact HI|exact EI|apply le_refl| |exact RD'|exact RG'| |exact M0| ].
      * eapply lock_held_put; eauto. assert (HF := half_push _ _ _ X). inversion PH; subst; constructor; auto. destruct X as (-> & _). apply zlen_assigned.
      * apply Forall_app. split; auto. constructor; auto. apply RG. now left.
      * eapply Forall_impl; [|exact IC]. intros c (r & ->). exists (r ++ [s]). now rewrite app_assoc.
    + destruct (HD ltac:(auto)) as (EL & PH). rewrite EL in *. eapply inv_put; [exact HI|exact EI|apply le_refl| |exact RD'|exact RG'|exact IS|exact M0|exact IC].
      inversion PH; subst. eapply lock_release; eauto. split; auto.
    + eapply inv_put; [exact HI|exact EI|apply le_refl|now apply SF|exact RD'|exact RG'|exact IS|exact M0|exact IC].
    + eapply inv_put; [exact HI|exact EI|apply le_refl|now apply SF|exact RD'|exact RG'|exact IS| |exact IC].
      intros a b Hab. apply in_app_or in Hab. destruct Hab as [|[Hab | []]]; auto. injection Hab as <- <-. right.
      destruct RD as (_ & RD). apply (RD [] s v sb eq_refl).
  - (* GCopy *) destruct (g_lock g) eqn:EL; [discriminate|]. apply some_inj in E. subst g'. unfold reg_inv. cbn [g_id g_sites g_lock g_thr g_msgs g_copies]. splits; auto.
    apply Forall_app. split; auto. constructor; auto. exists []. now rewrite app_nil_r.
Qed.

Lemma init_inv : forall N, reg_inv N g_init.
Proof.
  intros N. unfold reg_inv, g_init. cbn [g_id g_sites g_lock g_thr g_msgs g_copies inv_lock]. splits; try (constructor; fail).
  - split; [constructor|]. intros s. left. split; auto.
  - intros s v [].
Qed.

Lemma run_inv : forall N sev ls g g', N <= 2 ^ 31 -> reg_inv N g -> Forall (calls_ok N) ls -> g_run sev ls g = Some g' -> reg_inv N g'.
Proof.
  intros N sev ls. induction ls as [|l ls IH]; intros g g' HN HI HO E; cbn [g_run] in E; [congruence|]. inversion HO; subst.
  destruct (g_step sev l g) as [g1|] eqn:E1; [|discriminate]. eapply IH; [exact HN| |auto|exact E]. eapply step_inv; eauto.
Qed.

(** ** Consequences *)

Lemma tab_inj : forall ids sites a b, inv_tab ids sites -> ids a = ids b -> ids a <> UNASSIGNED -> a = b.
Proof.
  intros ids sites a b (_ & H) E N. destruct (H a) as [(X & _)|(k & X1 & X2)]; [congruence|]. destruct (H b) as [(Y & _)|(k' & Y1 & Y2)]; [congruence|].
  assert (k = k') by lia. congruence.
Qed.

Lemma half_inj : forall ids sites s a b, inv_half ids sites s -> ids a = ids b -> ids a <> UNASSIGNED -> a = b.
Proof.
  intros ids sites s a b H. apply half_push in H. apply (tab_inj _ _ a b H).
Qed.

(** The table once the thread in the block is done. *)
Lemma lock_tab : forall ids sites l ts, inv_lock ids sites l ts -> inv_tab ids sites \/ exists s, inv_half ids sites s /\ exists i, l = Some i.
Proof.
  intros ids sites [i|] ts H; [|left; now destruct H]. destruct H as ((h & _ & P) & _). inversion P; subst; eauto.
Qed.

Lemma step_mono : forall N sev l g g', reg_inv N g -> g_step sev l g = Some g' -> le_ids (g_id g) (g_id g') /\ exists r, g_sites g' = g_sites g ++ r.
Proof.
  intros N sev l g g' (IL & _) E.
  assert (S : forall g'', g_id g'' = g_id g -> g_sites g'' = g_sites g -> le_ids (g_id g) (g_id g'') /\ exists r, g_sites g'' = g_sites g ++ r).
  { intros g'' -> ->. split; [apply le_refl|]. exists []. now rewrite app_nil_r. }
  destruct l; cbn [g_step] in E.
  - apply some_inj in E. subst g'. apply S; reflexivity.
  - destruct (nth_error _ _) as [[p sb]|]; [|discriminate]. destruct p; try discriminate E. apply some_inj in E. subst g'. apply S; reflexivity.
  - destruct (nth_error _ _) as [[p sb]|]; [|discriminate]. destruct p; try discriminate E. apply some_inj in E. subst g'. apply S; reflexivity.
  - destruct (nth_error _ _) as [[p sb]|]; [|discriminate]. destruct (thr_step _ _ _ _) as [(h' & g1)|] eqn:ET; [|discriminate]. apply some_inj in E. subst g'.
    assert (X : g_id g1 = g_id g /\ g_sites g1 = g_sites g).
    { unfold thr_step in ET. cbn [h_pc h_sb] in ET. destruct p; try discriminate ET; try (apply some_inj in ET; injection ET as _ <-; auto; fail).
      destruct sb; [|discriminate]. destruct (g_lock g); [discriminate|]. apply some_inj in ET. injection ET as _ <-. auto. }
    destruct X. apply S; auto.
  - destruct (nth_error _ _) as [[p sb]|] eqn:EI; [|discriminate]. destruct sb as [|w sb]; [discriminate|]. apply some_inj in E. subst g'. destruct w; try (apply S; reflexivity).
    + split; [|exists []; now rewrite app_nil_r]. cbn [commit set_thr g_id]. apply tab_le.
      destruct (g_lock g) as [k|].
      * destruct IL as ((x & A1 & A2) & B). destruct (Nat.eq_dec i k) as [-> | D]; [|destruct (B i _ D EI) as (_ & F); inversion F; contradiction].
        assert (x = Thr p (WId s v :: sb)) by congruence. subst x. inversion A2; subst; auto.
      * destruct IL as (_ & B). destruct (nth_Forall _ _ _ _ _ B EI) as (_ & F). inversion F. contradiction.
    + split; [apply le_refl|]. cbn [commit set_thr g_sites]. eauto.
  - destruct (g_lock g); [discriminate|]. apply some_inj in E. subst g'. apply S; reflexivity.
Qed.

(** ** Progress *)

Lemma run_app : forall sev a b g, g_run sev (a ++ b) g = match g_run sev a g with Some g' => g_run sev b g' | None => None end.
Proof. intros sev. induction a as [|l a IH]; intros b g; cbn [app g_run]; auto. destruct (g_step sev l g); auto. Qed.

(** Thread [i]'s stores reach memory. *)
Lemma drain : forall sev i p sb g, nth_error (g_thr g) i = Some (Thr p sb) ->
  exists g', g_run sev (repeat (GCommit i) (length sb)) g = Some g' /\ nth_error (g_thr g') i = Some (Thr p []) /\
    (forall j, j <> i -> nth_error (g_thr g') j = nth_error (g_thr g) j) /\
    (In WUnlock sb -> g_lock g' = None) /\ (g_lock g = None -> g_lock g' = None) /\
    (forall s v, In (s, v) (g_msgs g) \/ In (WMsg s v) sb -> In (s, v) (g_msgs g')).
Proof.
  intros sev i p. induction sb as [|w sb IH]; intros g EI.
  - exists g. cbn [length repeat g_run]. splits; auto; try tauto; try contradiction. intros s v [|[]]; auto.
  - cbn [length repeat g_run g_step]. rewrite EI.
    assert (E1 : nth_error (g_thr (set_thr i (Thr p sb) (commit w g))) i = Some (Thr p sb)).
    { assert (X : g_thr (set_thr i (Thr p sb) (commit w g)) = put i (Thr p sb) (g_thr g)) by (destruct w; reflexivity). rewrite X. eapply put_same; eauto. }
    destruct (IH _ E1) as (g' & R & A & B & C & D & F). exists g'. splits; auto.
    + intros j Hj. rewrite B by auto. assert (X : g_thr (set_thr i (Thr p sb) (commit w g)) = put i (Thr p sb) (g_thr g)) by (destruct w; reflexivity).
      rewrite X. eapply put_other; eauto.
    + intros [-> | H]; auto.
    + intros H. apply D. destruct w; cbn [commit set_thr g_lock]; auto.
    + intros s v H. apply F. cbn [In] in H. destruct H as [H | [-> | H]]; auto.
      * left. destruct w; cbn [commit set_thr g_msgs]; auto. apply in_or_app. auto.
      * left. cbn [commit set_thr g_msgs]. apply in_or_app. right. now left.
Qed.

(** One step of a thread. *)
Lemma thread_step : forall sev i h g h', nth_error (g_thr g) i = Some h -> thr_step sev i h g = Some (h', g) ->
  exists g', g_step sev (GStep i) g = Some g' /\ nth_error (g_thr g') i = Some h' /\ (forall j, j <> i -> nth_error (g_thr g') j = nth_error (g_thr g) j) /\
    g_lock g' = g_lock g /\ g_msgs g' = g_msgs g.
Proof.
  intros sev i h g h' EI ET. exists (set_thr i h' g). cbn [g_step]. rewrite EI, ET. splits; auto.
  - cbn [set_thr g_thr]. eapply put_same; eauto.
  - intros j Hj. cbn [set_thr g_thr]. eapply put_other; eauto.
Qed.

(** A thread in the block can leave it, and its release of the lock reach memory. *)
Lemma leave : forall sev n i s p sb g, nth_error (g_thr g) i = Some (Thr p sb) ->
  match p with PIn a => a = s /\ n = 4%nat | PAssign a => a = s /\ n = 3%nat | PPush a => a = s /\ n = 2%nat | PUnlock a => a = s /\ n = 1%nat | _ => False end ->
  exists ls g', g_run sev ls g = Some g' /\ Forall (calls_ok 0) ls /\ nth_error (g_thr g') i = Some (Thr (PRead s) []) /\ (forall j, j <> i -> nth_error (g_thr g') j = nth_error (g_thr g) j) /\ g_lock g' = None.
Proof.
  intros sev. induction n as [|n IH]; intros i s p sb g EI HP; [destruct p; try contradiction; destruct HP; lia|].
  assert (ST : forall p' sb', thr_step sev i (Thr p sb) g = Some (Thr p' sb', g) ->
    match p' with PIn a => a = s /\ n = 4%nat | PAssign a => a = s /\ n = 3%nat | PPush a => a = s /\ n = 2%nat | PUnlock a => a = s /\ n = 1%nat | _ => False end ->
    exists ls g', g_run sev ls g = Some g' /\ Forall (calls_ok 0) ls /\ nth_error (g_thr g') i = Some (Thr (PRead s) []) /\ (forall j, j <> i -> nth_error (g_thr g') j = nth_error (g_thr g) j) /\ g_lock g' = None).
  { intros p' sb' ET HP'. destruct (thread_step sev i _ g _ EI ET) as (g1 & S1 & A1 & B1 & C1 & _). destruct (IH i s p' sb' g1 A1 HP') as (ls & g' & R & O & A & B & C).
    exists (GStep i :: ls), g'. cbn [g_run]. rewrite S1. splits; auto.
    - constructor; [exact I|auto].
    - intros j Hj. rewrite B, B1; auto. }
  assert (UN : forall a sb0 g0, nth_error (g_thr g0) i = Some (Thr (PUnlock a) sb0) -> a = s ->
    exists ls g', g_run sev ls g0 = Some g' /\ Forall (calls_ok 0) ls /\ nth_error (g_thr g') i = Some (Thr (PRead s) []) /\ (forall j, j <> i -> nth_error (g_thr g') j = nth_error (g_thr g0) j) /\ g_lock g' = None).
  { intros a sb0 g0 E0 ->. destruct (thread_step sev i _ g0 (Thr (PRead s) (sb0 ++ [WUnlock])) E0 eq_refl) as (g1 & S1 & A1 & B1 & C1 & _).
    destruct (drain sev i _ _ g1 A1) as (g2 & R & A & B & C & _). exists (GStep i :: repeat (GCommit i) (length (sb0 ++ [WUnlock]))), g2. cbn [g_run]. rewrite S1. splits; auto.
    - constructor; [exact I|]. apply Forall_forall. intros l Hl. apply repeat_spec in Hl. subst l. exact I.
    - intros j Hj. rewrite B, B1; auto.
    - apply C. apply in_or_app. right. now left. }
  destruct p; try contradiction; destruct HP as (-> & HP); injection HP as ->.
  - destruct (seen_id sb (g_id g) s =? UNASSIGNED) eqn:EQ.
    + eapply (ST (PAssign s)); [unfold thr_step; cbn [h_pc h_sb]; rewrite EQ; reflexivity|auto].
    + destruct (thread_step sev i _ g (Thr (PUnlock s) sb) EI) as (g1 & S1 & A1 & B1 & _); [unfold thr_step; cbn [h_pc h_sb]; now rewrite EQ|].
      destruct (UN s sb g1 A1 eq_refl) as (ls & g' & R & O & A & B & C). exists (GStep i :: ls), g'. cbn [g_run]. rewrite S1. splits; auto.
      * constructor; [exact I|auto].
      * intros j Hj. rewrite B, B1; auto.
  - eapply (ST (PPush s)); [reflexivity|auto].
  - eapply (ST (PUnlock s)); [reflexivity|auto].
  - eapply UN; eauto.
Qed.

(** The lock can be released without thread [i], which does not hold it. *)
Lemma release : forall N sev i h g, reg_inv N g -> nth_error (g_thr g) i = Some h -> g_lock g <> Some i ->
  exists ls g', g_run sev ls g = Some g' /\ Forall (calls_ok 0) ls /\ nth_error (g_thr g') i = Some h /\ g_lock g' = None.
Proof.
  intros N sev i h g (IL & _) EI NL. destruct (g_lock g) as [k|] eqn:EL.
  - assert (D : i <> k) by congruence. destruct IL as (([p sb] & A1 & A2) & _).
    assert (X : outside p /\ In WUnlock sb \/ exists s n, match p with PIn a => a = s /\ n = 4%nat | PAssign a => a = s /\ n = 3%nat | PPush a => a = s /\ n = 2%nat | PUnlock a => a = s /\ n = 1%nat | _ => False end).
    { inversion A2; subst; try (right; eexists; eexists; eauto; fail); left; split; auto; cbn [In]; auto. }
    destruct X as [(_ & X) | (s & n & X)].
    + destruct (drain sev k p sb g A1) as (g' & R & A & B & C & _). exists (repeat (GCommit k) (length sb)), g'. splits; auto.
      * apply Forall_forall. intros l Hl. apply repeat_spec in Hl. subst l. exact I.
      * rewrite B; auto.
    + destruct (leave sev n k s p sb g A1 X) as (ls & g' & R & O & A & B & C). exists ls, g'. splits; auto. rewrite B; auto.
  - exists [], g. splits; auto.
Qed.

Lemma calls_weaken : forall N ls, 0 <= N -> Forall (calls_ok 0) ls -> Forall (calls_ok N) ls.
Proof. intros N ls H. apply Forall_impl. intros [] X; cbn [calls_ok] in *; auto. lia. Qed.
