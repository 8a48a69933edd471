(** What sync() waits for. *)
From Verif Require Import Base BaseProofs FrontFmt Args ArgsProofs DecodeProofs Encoder Wire EncoderProofs Prop_Encoder Decoder FileSpec DecoderProofs Prop_Decoder
  Ring RingProofs Prop_Ring Runtime RtRing RtBuf RtInv RtSafe RtFile RtScan.
From Coq Require Import Permutation.

Ltac Zify.zify_post_hook ::= Z.div_mod_to_equations.

(** ** Definitions *)

(** Some waiter wants the first [j] messages of thread [id] in the file. *)
Definition wants (ws : list waiter) (id : Z) (j : nat) : Prop := exists w, In w ws /\ In (id, j) (w_snap w).

Definition vis (ws : list waiter) (bufs : list buf) : Prop :=
  forall id j, wants ws id j -> exists b, In b bufs /\ b_id b = id /\ visible (b_ring b) j = true.

Definition took (ws : list waiter) (b : buf) : Prop := forall j, wants ws (b_id b) j -> (j <= b_taken b)%nat.

Definition current (ws : list waiter) (k : kpc) (b : buf) : Prop :=
  match k with
  | KPeek => forall j, wants ws (b_id b) j -> peeked (b_ring b) j
  | KEnc => c_pc (r_c (b_ring b)) <> CHave 0
  | KCheck => took ws b
  | _ => True
  end.

Definition second (ws : list waiter) (k : kpc) (last i : Z) (bufs : list buf) : Prop :=
  cov (took ws) k last i bufs /\ forall b, nth_error bufs (Z.to_nat i) = Some b -> current ws k b.

Definition in_file (t : rt) (id : Z) : nat := length (emitted id (concat (t_golds t) ++ t_gfile t)).
Definition on_way (t : rt) (id : Z) : nat := length (emitted id (concat (t_golds t) ++ t_gfile t ++ t_gflight t)).

Definition inv_sync (t : rt) : Prop :=
  vis (t_waiters t) (t_bufs t ++ t_gone t) /\
  (t_sync t = PERFORMING_SECOND_PASS -> encoded t = 0 -> t_kfull t = false -> t_skip t = false ->
    second (t_waiters t) (t_kpc t) (t_klast t) (t_ki t) (t_bufs t)) /\
  (t_sync t = WAITING_ON_AIO -> forall id j, wants (t_waiters t) id j -> (j <= on_way t id)%nat) /\
  (t_sync t = SYNC_COMPLETED -> forall id j, wants (t_waiters t) id j -> (j <= in_file t id)%nat) /\
  (forall s id j, In s (t_returned t) -> In (id, j) s -> (j <= in_file t id)%nat) /\
  (t_kfull t = true -> 0 < encoded t) /\
  33 <= t_osize t.

Lemma sync_frame : forall t t', inv_sync t -> vis (t_waiters t') (t_bufs t' ++ t_gone t') ->
  (forall id j, wants (t_waiters t') id j -> wants (t_waiters t) id j) -> t_sync t' = t_sync t -> t_returned t' = t_returned t ->
  (forall id, in_file t id <= in_file t' id)%nat -> (forall id, on_way t id <= on_way t' id)%nat ->
  (t_kfull t' = true -> 0 < encoded t') -> t_osize t' = t_osize t ->
  (t_sync t = PERFORMING_SECOND_PASS -> encoded t' = 0 -> t_kfull t' = false -> t_skip t' = false ->
    second (t_waiters t') (t_kpc t') (t_klast t') (t_ki t') (t_bufs t')) -> inv_sync t'.
Proof.
  intros t t' (A & B & C & D & E & F & G) V W E1 E2 M1 M2 K O S. unfold inv_sync. rewrite E1, E2, O. splits; auto.
  - intros X id j Y. specialize (C X id j (W _ _ Y)). specialize (M2 id). lia.
  - intros X id j Y. specialize (D X id j (W _ _ Y)). specialize (M1 id). lia.
  - intros s id j X Y. specialize (E s id j X Y). specialize (M1 id). lia.
Qed.

Lemma second_between : forall ws k last i bufs, between k = true -> second ws k last i bufs.
Proof.
  intros ws k last i bufs H. split; [intros p b _ Hc|intros b _]; destruct k; try discriminate H; try destruct Hc; exact I.
Qed.

Lemma second_nil : forall ws k last i, (k = KIdle \/ k = KScan) -> second ws k last i [].
Proof. intros ws k last i H. split; [intros p b Hp; destruct p; discriminate|]. intros b Hb. destruct (Z.to_nat i); discriminate. Qed.

(** ** Steps of the other threads *)

Definition keepS (b b' : buf) : Prop :=
  b_id b' = b_id b /\ b_taken b' = b_taken b /\ c_pc (r_c (b_ring b')) = c_pc (r_c (b_ring b)) /\
  (forall j, visible (b_ring b) j = true -> visible (b_ring b') j = true) /\
  (forall j, visible (b_ring b) j = true -> peeked (b_ring b) j -> peeked (b_ring b') j).

Lemma keepS_refl : forall l, Forall2 keepS l l.
Proof. induction l; constructor; auto. unfold keepS. splits; auto. Qed.

Lemma keepS_update : forall bufs j b b', nth_error bufs j = Some b -> keepS b b' -> Forall2 keepS bufs (update j b' bufs).
Proof.
  induction bufs as [|a bufs IH]; intros [|j] b b' H K; try discriminate; cbn in *.
  - apply some_inj in H. subst. constructor; auto using keepS_refl.
  - constructor; [unfold keepS; splits; auto|]. eapply IH; eauto.
Qed.

Lemma Forall2_in_l : forall A B (R : A -> B -> Prop) l l' x, Forall2 R l l' -> In x l -> exists y, In y l' /\ R x y.
Proof. intros A B R l l' x H. induction H; intros []; [subst; eexists; split; [now left|auto]|]. destruct (IHForall2 H1) as (y0 & Y & Z). exists y0. split; [now right|auto]. Qed.

Lemma vis_keep : forall ws bufs bufs' gone, Forall2 keepS bufs bufs' -> vis ws (bufs ++ gone) -> vis ws (bufs' ++ gone).
Proof.
  intros ws bufs bufs' gone K V id j W. destruct (V id j W) as (b & B1 & B2 & B3). apply in_app_or in B1. destruct B1 as [B1 | B1].
  - destruct (Forall2_in_l _ _ _ _ _ _ K B1) as (b' & X & (Y1 & _ & _ & Y2 & _)). exists b'. splits; auto; [apply in_or_app; auto|congruence].
  - exists b. splits; auto. apply in_or_app. auto.
Qed.

Lemma same_id : forall (l : list buf) a b, NoDup (map b_id l) -> In a l -> In b l -> b_id a = b_id b -> a = b.
Proof.
  induction l as [|x l IH]; intros a b N Ha Hb E; [destruct Ha|]. cbn [map] in N. inversion N as [|? ? N1 N2]. subst.
  destruct Ha as [-> | Ha], Hb as [-> | Hb]; auto; exfalso; apply N1; [rewrite E|rewrite <- E]; now apply in_map.
Qed.

Lemma inv_nodup : forall small t, inv small t -> NoDup (map b_id (t_bufs t ++ t_gone t)).
Proof. intros small t H. inv_split H. destruct HId as (A & _). rewrite app_assoc in A. apply NoDup_left in A. now rewrite map_app. Qed.

Lemma vis_at : forall ws l b j, NoDup (map b_id l) -> vis ws l -> In b l -> wants ws (b_id b) j -> visible (b_ring b) j = true.
Proof. intros ws l b j N V Hb W. destruct (V _ _ W) as (b' & B1 & B2 & B3). now rewrite (same_id l b b' N Hb B1 (eq_sym B2)). Qed.

Lemma second_keep : forall ws k last i bufs bufs' gone, Forall2 keepS bufs bufs' -> NoDup (map b_id (bufs ++ gone)) -> vis ws (bufs ++ gone) ->
  second ws k last i bufs -> second ws k last i bufs'.
Proof.
  intros ws k last i bufs bufs' gone K N V (A & B). split.
  - intros p b' Hp Hc. destruct (Forall2_nth_r _ _ _ _ _ _ _ K Hp) as (b & Hb & (K1 & K2 & _)). intros j W. rewrite K1 in W. rewrite K2. exact (A p b Hb Hc j W).
  - intros b' Hp. destruct (Forall2_nth_r _ _ _ _ _ _ _ K Hp) as (b & Hb & (K1 & K2 & K3 & K4 & K5)). specialize (B b Hb). destruct k; auto; cbn [current] in *.
    + intros j W. rewrite K1 in W. apply K5; auto. eapply vis_at; eauto. apply in_or_app. left. eapply nth_error_In; eauto.
    + now rewrite K3.
    + intros j W. rewrite K1 in W. rewrite K2. auto.
Qed.

Lemma sync_keep : forall small t t', inv small t -> inv_sync t -> Forall2 keepS (t_bufs t) (t_bufs t') -> t_gone t' = t_gone t ->
  (forall id j, wants (t_waiters t') id j -> wants (t_waiters t) id j) -> t_sync t' = t_sync t -> t_returned t' = t_returned t ->
  (forall id, in_file t id <= in_file t' id)%nat -> (forall id, on_way t id <= on_way t' id)%nat ->
  t_kfull t' = t_kfull t -> encoded t' = encoded t -> t_osize t' = t_osize t -> t_skip t' = t_skip t ->
  t_kpc t' = t_kpc t -> t_klast t' = t_klast t -> t_ki t' = t_ki t -> inv_sync t'.
Proof.
  intros small t t' HI H K E1 W E2 E3 M1 M2 E4 E5 E6 E7 E8 E9 E10. pose proof H as (A & B & _ & _ & _ & F & G).
  assert (V : vis (t_waiters t') (t_bufs t ++ t_gone t)) by (intros id j X; apply A; auto).
  eapply sync_frame; [exact H|..]; auto.
  - rewrite E1. eapply vis_keep; eauto.
  - now rewrite E4, E5.
  - intros S1 S2 S3 S4. rewrite E8, E9, E10. rewrite E5 in S2. rewrite E4 in S3. rewrite E7 in S4.
    eapply second_keep; [exact K| |exact V|]; [eapply inv_nodup; eauto|]. destruct (B S1 S2 S3 S4) as (X & Y).
    split; [intros p b Hp Hc j Wj; eapply X; eauto|]. intros b Hb. specialize (Y b Hb). destruct (t_kpc t); auto; cbn [current] in *; intros j Wj; auto.
Qed.

Lemma vis_sent : forall r j, visible r j = true -> (j <= length (r_sent r))%nat.
Proof. intros r j H. unfold visible in H. apply andb_prop in H. destruct H as (H & _). now apply Nat.leb_le in H. Qed.

Definition visible_stp := visible_step SBS SBS_range.
Definition visible_rn := visible_run SBS SBS_range.
Definition peeked_strt := peeked_start SBS SBS_range.
Definition peeked_stp := peeked_step SBS SBS_range.

Lemma outside_keepS : forall l r r' id ms ms' k, ring_inv SBS r -> outside l = true -> ring_step SBS l r = Some r' ->
  keepS (Buf id r ms k) (Buf id r' ms' k).
Proof.
  intros l r r' id ms ms' k HI O E. unfold keepS. cbn [b_id b_ring b_taken]. splits; auto.
  - eapply outside_pc; eauto.
  - intros j. eapply visible_stp; eauto.
  - intros j V P. apply (peeked_stp l r r' j); auto; [destruct l; try discriminate O; reflexivity|].
    now apply vis_sent.
Qed.

Lemma buf_at : forall small t j b, inv small t -> nth_error (t_bufs t) j = Some b -> buf_ok small (t_sites t) b.
Proof. intros small t j b H E. inv_split H. destruct HBu as (A & _). eapply Forall_forall; [exact A|eapply nth_error_In; eauto]. Qed.

Lemma on_ring_sync : forall small t j l t', inv small t -> inv_sync t -> outside l = true -> on_ring j l t = Some t' -> inv_sync t'.
Proof.
  intros small t j l t' HI H O E. unfold on_ring in E. destruct (nth_error (t_bufs t) j) as [b|] eqn:EB; [|discriminate].
  destruct (ring_step _ _ _) as [r|] eqn:ER; [|discriminate]. apply some_inj in E. subst t'.
  eapply sync_keep; [exact HI|exact H|rt_cbn..]; auto. eapply keepS_update; eauto. destruct b as [id r0 ms k]. eapply outside_keepS; eauto.
  apply (buf_at _ _ _ _ HI EB).
Qed.

Lemma push_sync : forall small t k t', inv small t -> inv_sync t -> rt_step (RPush k) t = Some t' -> inv_sync t'.
Proof.
  intros small t k t' HI H E. cbn [rt_step] in E. destruct (nth_error (t_pend t) k) as [id|] eqn:EK; [|discriminate].
  apply some_inj in E. subst t'. pose proof H as (A & B & _ & _ & _ & F & G). pose proof HI as HI'. inv_split HI'. destruct HId as (I1 & _).
  assert (NI : ~ In id (map b_id (t_bufs t) ++ map b_id (t_gone t))).
  { intro X. rewrite app_assoc in I1. eapply NoDup_not_right; eauto. eapply nth_error_In; eauto. }
  assert (TK : took (t_waiters t) (Buf id (new_ring STAGING_BUFFER_SIZE) [] 0)).
  { intros j W. destruct (A _ _ W) as (b & B1 & B2 & _). exfalso. apply NI. cbn [b_id] in B2. rewrite <- B2, <- map_app. now apply in_map. }
  assert (N : forall p b, nth_error (t_bufs t ++ [Buf id (new_ring STAGING_BUFFER_SIZE) [] 0]) p = Some b ->
    nth_error (t_bufs t) p = Some b \/ b = Buf id (new_ring STAGING_BUFFER_SIZE) [] 0).
  { intros p b Hp. destruct (Nat.lt_ge_cases p (length (t_bufs t))); [rewrite nth_error_app1 in Hp; auto|].
    rewrite nth_error_app2 in Hp by auto. destruct (p - length (t_bufs t))%nat as [|m]; [right; now apply some_inj in Hp|destruct m; discriminate]. }
  eapply sync_frame; [exact H|rt_cbn..]; auto.
  - intros i j W. destruct (A _ _ W) as (b & B1 & B2). exists b. split; auto. rewrite !in_app_iff in *. tauto.
  - intros S1 S2 S3 S4. destruct (B S1 S2 S3 S4) as (X & Y). split.
    + intros p b Hp Hc. destruct (N p b Hp) as [Hb | ->]; [eapply X; eauto|exact TK].
    + intros b Hp. destruct (N _ b Hp) as [Hb | ->]; [apply Y; auto|]. destruct (t_kpc t); try exact I; cbn [current]; [|discriminate|exact TK].
      intros j W. exact I.
Qed.

(** ** Steps of the compression thread *)

Lemma peeked_took : forall small sites b j, buf_ok small sites b -> c_pc (r_c (b_ring b)) = CHave 0 -> visible (b_ring b) j = true -> peeked (b_ring b) j ->
  (j <= b_taken b)%nat.
Proof.
  intros small sites b j (_ & _ & A & B & C & _) EC V P. unfold peeked in P. rewrite EC in P. specialize (P eq_refl). apply vis_sent in V.
  assert (NE := staged_nonempty _ _ _ A). unfold all_sent in NE. apply Forall_app in NE. destruct NE as (NE & _).
  apply (concat_mono (r_sent (b_ring b))); auto. rewrite <- B. exact P.
Qed.

Lemma notify_sync : forall t, inv_sync t -> t_sync t = SYNC_COMPLETED -> inv_sync (notify t).
Proof.
  intros t H E. unfold notify. destruct (t_waiters t) as [|w ws] eqn:EW; [exact H|]. pose proof H as (A & B & C & D & F & G & O).
  rewrite EW in *. assert (W : forall id j, wants ws id j -> wants (w :: ws) id j) by (intros id j (x & X & Y); exists x; split; [now right|auto]).
  assert (X : forall t1, t_bufs t1 = t_bufs t -> t_gone t1 = t_gone t -> t_golds t1 = t_golds t -> t_gfile t1 = t_gfile t -> t_sync t1 = t_sync t ->
    t_kfull t1 = t_kfull t -> t_en t1 = t_en t -> t_osize t1 = t_osize t -> t_returned t1 = t_returned t ++ [w_snap w] -> t_waiters t1 = ws -> inv_sync t1).
  { intros t1 E1 E2 E3 E4 E5 E6 E7 E8 E9 E10. unfold inv_sync, in_file, on_way, encoded in *. rewrite E1, E2, E3, E4, E5, E6, E7, E8, E9, E10, E. splits; auto; try discriminate.
    - intros id j Y. apply A. auto.
    - intros s id j Y Z. apply in_app_or in Y. destruct Y as [Y | [<- | []]]; [eapply F; eauto|]. apply (D E). exists w. split; [now left|auto]. }
  destruct (w_switch w); (apply X; rt_cbn; auto).
Qed.

Lemma encode_grows : forall small t b n e read cnt, inv small t -> nth_error (t_bufs t) (Z.to_nat (t_ki t)) = Some b -> c_pc (r_c (b_ring b)) = CHave n -> n <> 0 -> 33 <= t_osize t ->
  encodeLogMsgs (t_en t) (s_data (r_mem (b_ring b))) (c_pos (r_c (b_ring b))) (Z.min RELEASE n) (b_id b) (t_kwrap t) (t_shadow t) = (e, read, cnt) ->
  0 < getEncodedBytes e /\ 0 <= read.
Proof.
  intros small t b n e read cnt HI EB EC n1 O EE. pose proof (buf_at _ _ _ _ HI EB) as HO. inv_split HI.
  assert (HI0 : 0 <= b_id b < 2 ^ 32).
  { destruct HId as (_ & X & Y & _). eapply Forall_forall in X; [|apply in_or_app; left; apply in_map; eapply nth_error_In; eauto]. cbv beta in X. lia. }
  assert (n0 : 0 < n).
  { destruct (handed_messages _ _ _ _ HO EC) as (j & _ & X). cbv zeta in X. destruct X as (_ & X & _).
    pose proof (zlen_nonneg _ (concat (firstn (j - b_taken b) (skipn (b_taken b) (r_sent (b_ring b)))))). lia. }
  destruct HKn as (_ & _ & _ & _ & K5). rewrite K5 in EE.
  destruct (buf_encode small (t_sites t) (Z.to_nat (t_nextp t)) b n (t_en t) (t_kwrap t) e read cnt HO EC n0 (proj1 HEn) HI0 EE) as (R1 & R2 & R3 & R4 & R5).
  cbv zeta in R5. unfold getEncodedBytes. destruct HEn as ((E1 & E2 & E3 & E4) & E5 & E6).
  destruct R5 as [(-> & _ & W) | (ws & _ & _ & W1 & W2 & _)]; [unfold e_space in W; lia|].
  pose proof (extent_zlen (b_id b) (t_kwrap t) ws). lia.
Qed.

Lemma dict_grows : forall small t, inv small t -> encoded t <= encoded (k_dict t).
Proof.
  intros small t H. unfold k_dict. cbv zeta. destruct (t_nextp t <? zlen (t_sites t)) eqn:EN; [|apply Z.le_refl].
  destruct (encodeNewDictionaryEntries (t_en t) (t_nextp t) (t_sites t)) as [[e n] ret] eqn:EE. unfold encoded. rt_cbn.
  inv_split H. destruct HEn as ((E1 & E2 & E3 & E4) & E5 & E6). destruct HSi as (S1 & S2).
  destruct HKn as (K1 & K2 & K3 & K4 & K5).
  apply dictionary_spec in EE; auto; try lia.
  2:{ apply Forall_forall. intros s Hs. eapply Forall_forall in S1; eauto. destruct S1 as (_ & _ & S3 & S4 & _).
      split; eapply Forall_impl; try eassumption; unfold nonzero_byte, is_byte; intros; cbn in *; lia. }
  2:{ unfold e_space. lia. }
  destruct EE as [(D1 & -> & -> & ->)|(D1 & D2 & D3)]; [apply Z.le_refl|].
  cbv zeta in D3. match type of D3 with context [dict_bytes n ?x] => set (news := x) in * end. pose proof (zlen_nonneg _ (dict_bytes n news)).
  destruct D3 as (D3 & D4 & _ & D5 & D6 & D7 & D8 & D9 & D10 & _). unfold getEncodedBytes. lia.
Qed.

Lemma emitted_le : forall id a b, (length (emitted id a) <= length (emitted id (a ++ b)))%nat.
Proof. intros. rewrite emitted_app, app_length. lia. Qed.

(** All that is asked for has been taken out of the staging buffers. *)
Lemma took_all : forall small t id j, inv small t -> vis (t_waiters t) (t_bufs t ++ t_gone t) -> Forall (took (t_waiters t)) (t_bufs t) -> wants (t_waiters t) id j ->
  (j <= length (emitted id (everything t)))%nat.
Proof.
  intros small t id j HI V T W. destruct (V _ _ W) as (b & B1 & <- & B3). inv_split HI. destruct HAc as (A1 & A2 & _).
  assert (L : forall b, buf_ok small (t_sites t) b -> (length (r_sent (b_ring b)) <= length (b_msgs b))%nat).
  { intros b0 (_ & _ & X & _). assert (Y : length (b_msgs b0) = length (all_sent (b_ring b0))) by (clear - X; induction X; cbn; auto).
    rewrite Y. unfold all_sent. rewrite app_length. lia. }
  destruct HBu as (U1 & U2). apply in_app_or in B1. destruct B1 as [B1 | B1].
  - eapply Forall_forall in A1; eauto. eapply Forall_forall in T; eauto. eapply Forall_forall in U1; eauto. rewrite A1, firstn_length. specialize (T _ W).
    pose proof (L _ U1). destruct U1 as (_ & _ & _ & _ & X & _). lia.
  - eapply Forall_forall in A2; eauto. eapply Forall_forall in U2; eauto. destruct A2 as (A2 & _). rewrite A2. apply vis_sent in B3. pose proof (L _ U2). lia.
Qed.

Lemma vis_update : forall ws bufs gone j b b', vis ws (bufs ++ gone) -> nth_error bufs j = Some b -> b_id b' = b_id b ->
  (forall j, visible (b_ring b) j = true -> visible (b_ring b') j = true) -> vis ws (update j b' bufs ++ gone).
Proof.
  intros ws bufs gone j b b' V Hb E HV id n W. destruct (V _ _ W) as (x & X1 & X2 & X3). apply in_app_or in X1. destruct X1 as [X1 | X1].
  - apply In_nth_error in X1. destruct X1 as (p & Hp). destruct (Nat.eq_dec p j) as [-> | NE].
    + assert (x = b) as -> by congruence. exists b'. splits; auto; [|congruence]. apply in_or_app. left. apply (nth_error_In _ j). rewrite update_nth, Hb, Nat.eqb_refl. reflexivity.
    + exists x. splits; auto. apply in_or_app. left. apply (nth_error_In _ p). rewrite update_nth. apply Nat.eqb_neq in NE. now rewrite NE.
  - exists x. splits; auto. apply in_or_app. now right.
Qed.

Definition careful (l : rlabel) (t : rt) : Prop :=
  match l with
  | RSpurious | RInterrupt => False
  | RThread => t_kpc t = KIdle -> t_sync t = PERFORMING_SECOND_PASS -> t_skip t = false
  | _ => True
  end.

Lemma thread_sync : forall small t t', inv small t -> inv_scan t -> inv_sync t -> careful RThread t -> k_step t = Some t' -> inv_sync t'.
Proof.
  intros small t t' HI HSc H HG E. assert (HN := bufs_small _ _ HI). pose proof HSc as (A & B & _). pose proof H as (V & S & C & D & R & F & O).
  assert (ND := inv_nodup _ _ HI). unfold careful in HG. unfold k_step in E. destruct (t_kpc t) eqn:EP.
  - (* KTop *)
    apply some_inj in E. subst t'. eapply sync_frame; [exact H|rt_cbn..]; auto.
    intros. apply second_between. destruct (negb _ || _ || _); reflexivity.
  - (* KDict *)
    apply some_inj in E. subst t'. assert (DG := dict_grows _ _ HI).
    assert (X : t_bufs (k_dict t) = t_bufs t /\ t_gone (k_dict t) = t_gone t /\ t_waiters (k_dict t) = t_waiters t /\ t_sync (k_dict t) = t_sync t /\
      t_returned (k_dict t) = t_returned t /\ t_golds (k_dict t) = t_golds t /\ t_gfile (k_dict t) = t_gfile t /\ t_gflight (k_dict t) = t_gflight t /\
      t_kfull (k_dict t) = t_kfull t /\ t_osize (k_dict t) = t_osize t /\ t_kpc (k_dict t) = KScan /\ t_ki (k_dict t) = t_klast t /\ t_klast (k_dict t) = t_klast t).
    { unfold k_dict. destruct (t_nextp t <? _); [destruct (encodeNewDictionaryEntries _ _ _) as [[e n] ret]|]; rt_cbn; splits; reflexivity. }
    destruct X as (X1 & X2 & X3 & X4 & X5 & X6 & X7 & X8 & X9 & X10 & X11 & X12 & X13).
    eapply sync_frame; [exact H|..]; auto.
    + now rewrite X1, X2, X3.
    + now rewrite X3.
    + intros id. unfold in_file. rewrite X6, X7. lia.
    + intros id. unfold on_way. rewrite X6, X7, X8. lia.
    + rewrite X9. intros Y. specialize (F Y). lia.
    + intros. rewrite X11, X12, X13. split; [|intros; exact I]. intros p b Hp Hc. cbn [covered] in Hc. rewrite Z.leb_refl in Hc. lia.
  - (* KScan *)
    destruct (t_kfull t) eqn:EF.
    { apply some_inj in E. subst t'. eapply sync_frame; [exact H|rt_cbn..]; auto. intros _ _ X. congruence. }
    destruct (t_bufs t) as [|x xs] eqn:EB.
    { apply some_inj in E. subst t'. eapply sync_frame; [exact H|rt_cbn; rewrite ?EB..]; auto; [congruence|]. intros. apply second_nil. auto. }
    rewrite <- EB in *. destruct (on_ring _ _ _) as [t1|] eqn:ER; [|discriminate]. apply some_inj in E. subst t'.
    unfold on_ring in ER. destruct (nth_error (t_bufs t) (Z.to_nat (t_ki t))) as [b|] eqn:EN; [|discriminate].
    destruct (ring_step _ _ _) as [r|] eqn:ES; [|discriminate]. apply some_inj in ER. subst t1. pose proof (buf_at _ _ _ _ HI EN) as BO.
    set (b' := Buf (b_id b) r (b_msgs b) (b_taken b)).
    assert (VS : forall j, visible (b_ring b) j = true -> visible r j = true).
    { intros j. eapply visible_stp; [apply BO|exact ES]. }
    eapply sync_frame; [exact H|rt_cbn..]; auto; [|congruence|].
    + eapply vis_update; eauto.
    + intros S1 S2 S3 S4. destruct (S S1 S2 eq_refl S4) as (S5 & _). split.
      * intros p x0 Hp Hc. revert p x0 Hp Hc. change (cov (took (t_waiters t)) KScan (t_klast t) (t_ki t) (update (Z.to_nat (t_ki t)) b' (t_bufs t))).
        eapply cov_update; [exact S5|exact EN|auto|auto].
      * intros x0 Hx. rewrite update_nth, EN, Nat.eqb_refl in Hx. apply some_inj in Hx. subst x0. cbn [current]. intros j W.
        eapply peeked_strt; [exact ES|]. eapply vis_at; eauto. apply in_or_app. left. eapply nth_error_In; eauto.
  - (* KPeek *)
    assert (RG : 0 <= t_ki t < zlen (t_bufs t)) by (destruct A as (_ & _ & A3); exact A3).
    destruct (nth_error (t_bufs t) (Z.to_nat (t_ki t))) as [b|] eqn:EN; [|discriminate]. pose proof (buf_at _ _ _ _ HI EN) as BO.
    assert (IB : In b (t_bufs t ++ t_gone t)) by (apply in_or_app; left; eapply nth_error_In; eauto).
    assert (CONS : (forall cp, c_pc (r_c (b_ring b)) = CPeek cp \/ c_pc (r_c (b_ring b)) = CRoll cp -> on_ring (Z.to_nat (t_ki t)) LConsumer t = Some t' -> inv_sync t')).
    { intros cp HC E1. unfold on_ring in E1. rewrite EN in E1. destruct (ring_step _ _ _) as [r|] eqn:ES; [|discriminate]. apply some_inj in E1. subst t'.
      assert (VS : forall j, visible (b_ring b) j = true -> visible r j = true).
      { intros j. eapply visible_stp; [apply BO|exact ES]. }
      eapply sync_frame; [exact H|rt_cbn..]; auto.
      - eapply vis_update; eauto.
      - intros S1 S2 S3 S4. destruct (S S1 S2 S3 S4) as (S5 & S6). rewrite EP. split.
        + eapply cov_update; [exact S5|exact EN|auto|auto].
        + intros x0 Hx. rewrite update_nth, EN, Nat.eqb_refl in Hx. apply some_inj in Hx. subst x0. cbn [current b_ring b_id]. intros j W.
          apply (peeked_stp LConsumer (b_ring b) r j); auto.
          * apply BO.
          * cbn [peeking]. destruct HC as [-> | ->]; reflexivity.
          * apply vis_sent. eapply vis_at; eauto.
          * apply (S6 b EN). exact W. }
    destruct (c_pc (r_c (b_ring b))) eqn:EC; try discriminate E; try (eapply CONS; eauto; fail). clear CONS.
    destruct (0 <? n) eqn:E0.
    { apply some_inj in E. subst t'. eapply sync_frame; [exact H|rt_cbn..]; auto.
      intros S1 S2 S3 S4. destruct (S S1 S2 S3 S4) as (S5 & S6). split; [exact S5|]. intros x0 Hx. assert (x0 = b) as -> by congruence. cbn [current]. rewrite EC. intro X. inversion X. lia. }
    destruct (on_ring _ _ _) as [t1|] eqn:ER; [|discriminate]. apply some_inj in E. subst t'.
    unfold on_ring in ER. rt_cbn_in ER. rewrite EN in ER. destruct (ring_step _ _ _) as [r|] eqn:ES; [|discriminate]. apply some_inj in ER. subst t1.
    assert (N0 : n = 0). { unfold ring_step in ES. cbv zeta in ES. rewrite EC in ES. destruct (n =? 0) eqn:E1; [lia|discriminate]. } subst n.
    assert (VS : forall j, visible (b_ring b) j = true -> visible r j = true).
    { intros j. eapply visible_stp; [apply BO|exact ES]. }
    eapply sync_frame; [exact H|rt_cbn..]; auto.
    + eapply vis_update; eauto.
    + intros S1 S2 S3 S4. destruct (S S1 S2 S3 S4) as (S5 & S6).
      assert (TK : took (t_waiters t) b).
      { intros j W. apply (peeked_took small (t_sites t) b j); auto; [eapply vis_at; eauto|]. apply (S6 b EN). exact W. }
      split.
      * apply cov_update with (Q := took (t_waiters t)) (b := b); [|exact EN|intros X; exact X|auto]. destruct (s_dead _); [exact S5|]. eapply cov_pass; [|exact A|exact HN|exact EN|exact TK|exact S5]. auto.
      * intros x0 Hx. rewrite update_nth, EN, Nat.eqb_refl in Hx. apply some_inj in Hx. subst x0. destruct (s_dead _); [exact TK|exact I].
  - (* KEnc *)
    destruct (nth_error (t_bufs t) (Z.to_nat (t_ki t))) as [b|] eqn:EN; [|discriminate]. pose proof (buf_at _ _ _ _ HI EN) as BO.
    destruct (c_pc (r_c (b_ring b))) eqn:EC; try discriminate E. destruct (n =? 0) eqn:E0.
    { apply some_inj in E. subst t'. apply Z.eqb_eq in E0. subst n. eapply sync_frame; [exact H|rt_cbn..]; auto.
      intros S1 S2 S3 S4. destruct (S S1 S2 S3 S4) as (S5 & S6). exfalso. exact (S6 b EN EC). }
    unfold k_encode in E. destruct (encodeLogMsgs _ _ _ _ _ _ _) as [[e read] cnt] eqn:EE.
    destruct (encode_grows small t b n e read cnt HI EN EC ltac:(lia) O EE) as (G1 & G2). destruct (read =? 0) eqn:ER0.
    { apply some_inj in E. subst t'. eapply sync_frame; [exact H|unfold encoded; rt_cbn..]; auto. intros _ _ X. discriminate X. }
    destruct (ring_run _ _ _) as [r|] eqn:ER; [|discriminate]. apply some_inj in E. subst t'.
    eapply sync_frame; [exact H|unfold encoded; rt_cbn..]; auto.
    + eapply vis_update; eauto. intros j. eapply visible_rn; [apply BO|exact ER].
    + intros _ X. lia.
  - (* KCheck *)
    assert (RG : 0 <= t_ki t < zlen (t_bufs t)) by (destruct A as (_ & _ & A3); exact A3).
    destruct (nth_error (t_bufs t) (Z.to_nat (t_ki t))) as [b|] eqn:EN; [|discriminate]. pose proof (buf_at _ _ _ _ HI EN) as BO.
    destruct (c_pc (r_c (b_ring b))) eqn:EC; try discriminate E. destruct (on_ring _ _ _) as [t1|] eqn:ER; [|discriminate].
    unfold on_ring in ER. rewrite EN in ER. destruct (ring_step _ _ _) as [r|] eqn:ES; [|discriminate]. apply some_inj in ER. subst t1.
    rt_cbn_in E. rewrite update_nth, EN, Nat.eqb_refl in E. cbn [b_ring] in E. set (b' := Buf (b_id b) r (b_msgs b) (b_taken b)) in *.
    assert (VS : forall j, visible (b_ring b) j = true -> visible r j = true).
    { intros j. eapply visible_stp; [apply BO|exact ES]. }
    assert (V' : vis (t_waiters t) (update (Z.to_nat (t_ki t)) b' (t_bufs t) ++ t_gone t)) by (eapply vis_update; eauto).
    assert (KN : t' = set_kpc KNext (set_bufs (update (Z.to_nat (t_ki t)) b' (t_bufs t)) t) -> inv_sync t').
    { intros ->. eapply sync_frame; [exact H|rt_cbn..]; auto. intros S1 S2 S3 S4. destruct (S S1 S2 S3 S4) as (S5 & S6). split; [|intros; exact I].
      apply cov_update with (Q := took (t_waiters t)) (b := b); [|exact EN|intros X; exact X|auto]. eapply cov_pass; [|exact A|exact HN|exact EN|exact (S6 b EN)|exact S5]. auto. }
    destruct (c_pc (r_c r)); apply some_inj in E; try (apply KN; symmetry; exact E). clear KN. subst t'.
    assert (EN' : nth_error (update (Z.to_nat (t_ki t)) b' (t_bufs t)) (Z.to_nat (t_ki t)) = Some b') by (rewrite update_nth, EN, Nat.eqb_refl; auto).
    assert (A' := index_update _ _ _ (Z.to_nat (t_ki t)) b' _ A).
    assert (HN' : zlen (update (Z.to_nat (t_ki t)) b' (t_bufs t)) < 2 ^ 32) by (unfold zlen in *; now rewrite update_length).
    assert (S' : t_sync t = PERFORMING_SECOND_PASS -> encoded t = 0 -> t_kfull t = false -> t_skip t = false ->
      cov (took (t_waiters t)) KCheck (t_klast t) (t_ki t) (update (Z.to_nat (t_ki t)) b' (t_bufs t))).
    { intros S1 S2 S3 S4. apply cov_update with (Q := took (t_waiters t)) (b := b); [apply S; auto|exact EN|intros X; exact X|auto]. }
    set (bs := update (Z.to_nat (t_ki t)) b' (t_bufs t)) in *. clearbody bs.
    assert (V2 : vis (t_waiters t) (remove_at (Z.to_nat (t_ki t)) bs ++ t_gone t ++ [b'])).
    { intros id j W. destruct (V' _ _ W) as (x & X1 & X2). exists x. split; auto. assert (P := remove_perm _ _ _ _ EN'). rewrite !in_app_iff in *.
      destruct X1 as [X1 | X1]; [|tauto]. eapply Permutation_in in X1; [|exact P]. destruct X1 as [-> | X1]; [right; right; now left|tauto]. }
    unfold k_delete. cbv zeta. rt_cbn. destruct (remove_at (Z.to_nat (t_ki t)) bs) as [|y ys] eqn:ERM.
    + eapply sync_frame; [exact H|rt_cbn..]; auto. intros. apply second_nil. auto.
    + assert (NE : remove_at (Z.to_nat (t_ki t)) bs <> []) by (rewrite ERM; discriminate). rewrite <- ERM in *.
      eapply sync_frame; [exact H|rt_cbn..]; auto.
      intros S1 S2 S3 S4. apply orb_false_elim in S4. destruct S4 as (S4 & S5). apply Z.eqb_neq in S5. split; [|intros; exact I].
      exact (cov_delete _ _ _ _ A' HN' NE S5 (S' S1 S2 S3 S4)).
  - (* KNext *)
    apply some_inj in E. subst t'. unfold k_next. cbv zeta. eapply sync_frame; [exact H|rt_cbn..]; auto.
    intros S1 S2 S3 S4. destruct (S S1 S2 S3 S4) as (S5 & _). split; [exact (proj1 (cov_next _ _ _ _ A HN S5))|].
    intros x _. destruct (_ =? t_klast t); exact I.
  - (* KIdle *)
    apply some_inj in E. subst t'. unfold k_idle. destruct (encoded t =? 0) eqn:E0.
    2:{ eapply sync_frame; [exact H|rt_cbn..]; auto; try (intros; apply second_between; reflexivity). }
    apply Z.eqb_eq in E0. assert (KF : t_kfull t = false) by (destruct (t_kfull t); auto; specialize (F eq_refl); lia).
    assert (GL : t_glog t = []). { inv_split HI. eapply wires_empty. unfold encoded_bytes in HGl. unfold encoded in E0. rewrite E0 in HGl. exact HGl. }
    destruct (t_sync t) eqn:EY.
    + unfold inv_sync, in_file, on_way, encoded in *. rt_cbn. splits; auto; try discriminate. intros. apply second_between. reflexivity.
    + destruct (S eq_refl E0 KF (HG eq_refl eq_refl)) as (S5 & _).
      assert (T : Forall (took (t_waiters t)) (t_bufs t)).
      { apply Forall_forall. intros b Hb. apply In_nth_error in Hb. destruct Hb as (p & Hp). exact (S5 p b Hp I). }
      assert (AL := fun id j => took_all small t id j HI V T). unfold everything, sect in AL. rewrite GL, app_nil_r in AL.
      destruct (t_outst t) eqn:EO.
      * unfold inv_sync, in_file, on_way, encoded in *. rt_cbn. splits; auto; try discriminate.
      * destruct (nil_flight _ _ HI (or_introl EO)) as (_ & F2). rewrite F2, app_nil_r in AL. apply notify_sync; [|reflexivity].
        unfold inv_sync, in_file, on_way, encoded in *. rt_cbn. splits; auto; try discriminate.
    + eapply sync_frame; [exact H|rt_cbn..]; auto; try (intros; apply second_between; reflexivity).
    + apply notify_sync; [|exact EY]. eapply sync_frame; [exact H|rt_cbn..]; auto; try (intros; apply second_between; reflexivity).
  - (* KIo *)
    unfold k_io in E. destruct (t_outst t) eqn:EO.
    + destruct (t_flight t) eqn:EFl.
      * apply some_inj in E. subst t'. destruct (nil_flight _ _ HI (or_intror EFl)) as (_ & F2).
        assert (X : inv_sync (set_outst false (set_kpc KWrite t))).
        { eapply sync_frame; [exact H|rt_cbn..]; auto; try (intros; apply second_between; reflexivity). }
        unfold k_finish_io. cbv zeta. destruct (t_sync t) eqn:EY; auto. apply notify_sync; [|reflexivity].
        destruct X as (X1 & X2 & X3 & X4 & X5 & X6 & X7). unfold inv_sync, in_file, on_way, encoded in *. rt_cbn_in X3. rewrite EY, F2, app_nil_r in X3.
        rt_cbn. splits; auto; try discriminate.
      * destruct (t_kfull t) eqn:EK; [discriminate|]. apply some_inj in E. subst t'. eapply sync_frame; [exact H|rt_cbn..]; auto; try (intros; apply second_between; reflexivity). congruence.
    + apply some_inj in E. subst t'. eapply sync_frame; [exact H|rt_cbn..]; auto; try (intros; apply second_between; reflexivity).
  - (* KWrite *)
    apply some_inj in E. subst t'. unfold k_write. cbv zeta. destruct (encoded t =? 0).
    { eapply sync_frame; [exact H|rt_cbn..]; auto; try (intros; apply second_between; reflexivity). }
    destruct (swapBuffer _ _ _) as [e' o]. eapply sync_frame; [exact H|rt_cbn..]; auto; try discriminate.
    + intros id. unfold on_way. rt_cbn. rewrite !app_assoc. apply emitted_le.
    + intros. apply second_between. reflexivity.
  - discriminate.
Qed.

(** ** Every step *)

Lemma wants_one : forall ws w id j, wants (ws ++ [w]) id j -> wants ws id j \/ In (id, j) (w_snap w).
Proof.
  intros ws w id j (x & X & Y). apply in_app_or in X. destruct X as [X | [<- | []]]; [left; exists x; auto|now right].
Qed.

Lemma snap_vis : forall t snap id j, snap_ok t snap = true -> In (id, j) snap -> exists b, In b (t_bufs t ++ t_gone t) /\ b_id b = id /\ visible (b_ring b) j = true.
Proof.
  intros t snap id j H Hi. unfold snap_ok in H. rewrite forallb_forall in H. specialize (H _ Hi). apply existsb_exists in H. destruct H as (b & B1 & B2).
  apply andb_prop in B2. destruct B2 as (B2 & B3). apply Z.eqb_eq in B2. eauto.
Qed.

Lemma step_sync : forall small l t t', inv small t -> inv_scan t -> inv_sync t -> careful l t -> rt_step l t = Some t' -> inv_sync t'.
Proof.
  intros small l t t' HI HSc H HG E. pose proof H as (V & S & C & D & R & F & O). destruct l; cbn [rt_step] in E.
  - apply some_inj in E. subst t'. eapply sync_keep; [exact HI|exact H|rt_cbn; auto using keepS_refl..].
  - apply some_inj in E. subst t'. eapply sync_keep; [exact HI|exact H|rt_cbn; auto using keepS_refl..].
  - eapply push_sync; eauto.
  - destruct (nth_error (t_sites t) _) as [s|]; [|discriminate]. destruct (nth_error (t_bufs t) j) as [b|] eqn:EB; [|discriminate].
    destruct (ring_step _ _ _) as [r|] eqn:ER; [|discriminate]. apply some_inj in E. subst t'.
    eapply sync_keep; [exact HI|exact H|rt_cbn..]; auto. eapply keepS_update; eauto. destruct b as [id r0 ms k]. apply (outside_keepS (LLog (staged_bytes s x))); [|reflexivity|exact ER].
    apply (buf_at _ _ _ _ HI EB).
  - eapply on_ring_sync; eauto. reflexivity.
  - eapply on_ring_sync; eauto. reflexivity.
  - eapply on_ring_sync; eauto. reflexivity.
  - eapply on_ring_sync; eauto. reflexivity.
  - eapply thread_sync; eauto.
  - destruct (nth_error (t_flight t) k) as [[base n]|]; [|discriminate]. apply some_inj in E. subst t'.
    eapply sync_keep; [exact HI|exact H|rt_cbn; auto using keepS_refl..].
    + intros id. unfold in_file. rt_cbn. rewrite !app_assoc. apply emitted_le.
    + intros id. unfold on_way. rt_cbn. rewrite app_nil_r. lia.
  - destruct HG.
  - destruct (snap_ok t snap) eqn:ES; [|discriminate]. apply some_inj in E. subst t'. unfold inv_sync, in_file, on_way, encoded in *. rt_cbn. splits; auto; try discriminate.
    intros id j W. apply wants_one in W. destruct W as [W | W]; [auto|]. eapply snap_vis; eauto.
  - destruct (t_waiters t) as [|w ws] eqn:EW; [discriminate|]. apply some_inj in E. subst t'.
    eapply sync_keep; [exact HI|exact H|rt_cbn; auto using keepS_refl..]. rewrite EW. intros id j (x & X & Y). exists x. split; auto.
    apply in_app_or in X. destruct X as [X | [<- | []]]; [now right|now left].
  - destruct HG.
  - destruct (t_sw t); try discriminate. destruct (snap_ok t snap) eqn:ES; [|discriminate]. apply some_inj in E. subst t'.
    unfold inv_sync, in_file, on_way, encoded in *. rt_cbn. splits; auto; try discriminate.
    intros id j W. apply wants_one in W. destruct W as [W | W]; [auto|]. eapply snap_vis; eauto.
  - destruct (t_sw t); try discriminate. apply some_inj in E. subst t'. eapply sync_keep; [exact HI|exact H|rt_cbn; auto using keepS_refl..].
  - destruct (t_sw t); try discriminate. destruct (t_kpc t) eqn:EP; try discriminate. destruct (encoder _ _ _ _ _ _ _) as [e|]; [|discriminate].
    apply some_inj in E. subst t'. eapply sync_frame; [exact H|rt_cbn..]; auto; try discriminate.
    + intros id. unfold in_file. rt_cbn. rewrite concat_app. cbn [concat]. rewrite !app_nil_r, !app_assoc, <- (app_assoc _ _ (t_glog t)). apply emitted_le.
    + intros id. unfold on_way. rt_cbn. rewrite concat_app. cbn [concat app]. rewrite !app_nil_r, !app_assoc. apply emitted_le.
    + intros. apply second_between. reflexivity.
  - destruct (t_kpc t) eqn:EP; try discriminate. apply some_inj in E. subst t'. unfold k_stale. eapply sync_frame; [exact H|rt_cbn..]; auto.
    intros. split; [|intros; exact I]. intros p b Hp Hc. cbn [covered] in Hc. rewrite Z.leb_refl in Hc. lia.
Qed.

Lemma init_sync : forall m size b1 b2 rdtsc unixTime cps t, rt_init m size b1 b2 rdtsc unixTime cps = Some t -> inv_sync t.
Proof.
  intros m size b1 b2 rdtsc unixTime cps t E. unfold rt_init in E. destruct (encoder _ _ _ _ _ _ _) as [e|] eqn:EE; [|discriminate].
  assert (O : 33 <= size).
  { unfold encoder, insertCheckpoint, e_space in EE. cbn [e_end e_wp] in EE. destruct (b1 + size - b1 <? 33) eqn:X; [discriminate|]. lia. }
  apply some_inj in E. subst t. unfold inv_sync. rt_cbn. splits; auto; try discriminate.
  - intros id j (x & [] & _).
  - intros _ id j (x & [] & _).
  - intros s id j [].
Qed.
