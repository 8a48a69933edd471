(** The compression thread running on its own: what it gets done. *)
From Verif Require Import Base BaseProofs FrontFmt Args ArgsProofs DecodeProofs Encoder Wire EncoderProofs Prop_Encoder FileSpec Prop_Decoder
  Ring RingProofs Prop_Ring Runtime RtRing RtBuf RtInv RtSafe RtFile RtScan RtSync Prop_Runtime Prop_Scan.

Ltac Zify.zify_post_hook ::= Z.div_mod_to_equations.

(** ** What is left to do *)

Definition left_over (b : buf) : Z := zlen (concat (r_sent (b_ring b))) - zlen (r_got (b_ring b)).

Definition total (bufs : list buf) : Z := fold_right (fun b n => left_over b + n) 0 bufs.

Definition work (t : rt) : Z := total (t_bufs t) + (zlen (t_sites t) - t_nextp t) + zlen (t_bufs t).

Lemma total_app : forall a b, total (a ++ b) = total a + total b.
Proof. induction a as [|x a IH]; intros b; cbn [total fold_right app] in *; [reflexivity|]. unfold total in IH. rewrite IH. fold (total a) (total b). lia. Qed.

Lemma total_update : forall l j b b', nth_error l j = Some b -> total (update j b' l) = total l - left_over b + left_over b'.
Proof.
  induction l as [|x l IH]; intros [|j] b b' H; try discriminate; cbn [nth_error update total fold_right] in *.
  - apply some_inj in H. subst. lia.
  - fold (total l) (total (update j b' l)). rewrite (IH _ _ _ H). lia.
Qed.

Lemma total_remove : forall l j b, nth_error l j = Some b -> total (remove_at j l) = total l - left_over b.
Proof.
  intros l j b H. rewrite (remove_split _ _ _ _ H) at 2. unfold remove_at. rewrite !total_app. cbn [total fold_right]. fold (total (skipn (S j) l)). lia.
Qed.

Lemma left_nonneg : forall small sites b, buf_ok small sites b -> 0 <= left_over b.
Proof.
  intros small sites b (_ & _ & _ & B & _). unfold left_over. rewrite B. rewrite <- (firstn_skipn (b_taken b) (r_sent (b_ring b))) at 1.
  rewrite concat_app, zlen_app. pose proof (zlen_nonneg _ (concat (skipn (b_taken b) (r_sent (b_ring b))))). lia.
Qed.

Lemma total_nonneg : forall small sites l, Forall (buf_ok small sites) l -> 0 <= total l.
Proof.
  intros small sites l H. induction H as [|b l H _ IH]; cbn [total fold_right]; [lia|]. fold (total l). pose proof (left_nonneg _ _ _ H). lia.
Qed.

Lemma work_nonneg : forall small t, inv small t -> 0 <= work t.
Proof.
  intros small t H. inv_split H. destruct HBu as (HBu & _). pose proof (total_nonneg _ _ _ HBu). destruct HKn as (_ & _ & _ & K & _).
  unfold work. pose proof (zlen_nonneg _ (t_bufs t)). lia.
Qed.

(** ** Where the thread is in its round *)

(** Buffers the scan has yet to look at, this one included. *)
Definition dist (last i n : Z) : Z := (last - i - 1) mod n + 1.

Definition rank (t : rt) : Z :=
  let n := zlen (t_bufs t) in let d := dist (t_klast t) (t_ki t) n in let i' := to_u 64 (t_ki t + 1) mod n in
  match t_kpc t with
  | KTop | KExit => 0
  | KWrite => 1
  | KIo => 2
  | KIdle => 3
  | KDict => 10 * n + 20
  | KScan => if t_kfull t then 4 else 10 * d + 10
  | KPeek => 10 * d + match option_map (fun b => c_pc (r_c (b_ring b))) (nth_error (t_bufs t) (Z.to_nat (t_ki t))) with
                      | Some (CPeek _) => 9 | Some (CRoll _) => 8 | _ => 7 end
  | KEnc | KCheck => 10 * d + 6
  | KNext => if t_kfull t then 5 else if i' =? t_klast t then 5 else 10 * dist (t_klast t) i' n + 11
  end.

Lemma dist_range : forall last i n, 0 < n -> 1 <= dist last i n <= n.
Proof. intros. unfold dist. pose proof (Z.mod_pos_bound (last - i - 1) n). lia. Qed.

Lemma dist_nil : forall last, dist last last 0 = 0.
Proof. intros. unfold dist. rewrite Zmod_0_r. lia. Qed.

Lemma dist_next : forall last i n, 0 <= i < n -> 0 <= last < n -> n < 2 ^ 32 ->
  let i' := to_u 64 (i + 1) mod n in i' <> last -> dist last i' n = dist last i n - 1.
Proof.
  intros last i n Hi Hl Hn i' NE. assert (X : i' = if i + 1 =? n then 0 else i + 1).
  { subst i'. unfold to_u. rewrite (Z.mod_small (i + 1)) by lia. destruct (i + 1 =? n) eqn:E; [apply Z.eqb_eq in E; rewrite E; apply Z.mod_same; lia|].
    apply Z.mod_small. lia. }
  clearbody i'. unfold dist.
  assert (Y : forall a b, 0 <= b < n -> (exists k, a = b + k * n) -> a mod n = b).
  { intros a b Hb (k & ->). rewrite Z.mod_add by lia. now apply Z.mod_small. }
  destruct (i + 1 =? n) eqn:E1; subst i'.
  - rewrite (Y (last - 0 - 1) (last - 1)); [|lia|exists 0; lia]. rewrite (Y (last - i - 1) last); [lia|lia|exists (-1); lia].
  - destruct (Z_lt_dec i last).
    + rewrite (Y (last - (i + 1) - 1) (last - i - 2)); [|lia|exists 0; lia]. rewrite (Y (last - i - 1) (last - i - 1)); [lia|lia|exists 0; lia].
    + rewrite (Y (last - (i + 1) - 1) (last - i - 2 + n)); [|lia|exists (-1); lia]. rewrite (Y (last - i - 1) (last - i - 1 + n)); [lia|lia|exists (-1); lia].
Qed.

(** ** Invariants *)

Definition inv_live (t : rt) : Prop :=
  (t_kfull t = true -> 0 < encoded t) /\ (t_sync t = WAITING_ON_AIO -> t_outst t = true) /\ 33 <= t_osize t.

Lemma live_same : forall t t', inv_live t -> t_kfull t' = t_kfull t -> encoded t <= encoded t' -> t_sync t' = t_sync t -> t_outst t' = t_outst t ->
  t_osize t' = t_osize t -> inv_live t'.
Proof. intros t t' (A & B & C) E1 E2 E3 E4 E5. unfold inv_live. rewrite E1, E3, E4, E5. splits; auto. intros X. specialize (A X). lia. Qed.

Lemma on_ring_out : forall j l t t', on_ring j l t = Some t' -> exists b r, nth_error (t_bufs t) j = Some b /\ ring_step SBS l (b_ring b) = Some r /\
  t' = set_bufs (update j (Buf (b_id b) r (b_msgs b) (b_taken b)) (t_bufs t)) t.
Proof.
  unfold on_ring. intros j l t t' E. destruct (nth_error _ _) as [b|]; [|discriminate]. destruct (ring_step _ _ _) as [r|] eqn:ER; [|discriminate].
  apply some_inj in E. eauto.
Qed.

Lemma notify_live : forall t, t_kfull (notify t) = t_kfull t /\ t_en (notify t) = t_en t /\ t_sync (notify t) = t_sync t /\ t_outst (notify t) = t_outst t /\ t_osize (notify t) = t_osize t.
Proof. intros t. unfold notify. destruct (t_waiters t) as [|w ws]; [splits; auto|]. destruct (w_switch w); splits; reflexivity. Qed.

Lemma finish_live : forall t, inv_live t -> inv_live (k_finish_io t).
Proof.
  intros t (A & B & C). unfold k_finish_io. destruct (t_sync t) eqn:ES.
  1,2,4: (unfold inv_live, encoded in *; rt_cbn; rewrite ES; splits; auto; discriminate).
  destruct (notify_live (set_sync SYNC_COMPLETED (set_outst false (set_kpc KWrite t)))) as (N1 & N2 & N3 & N4 & N5).
  unfold inv_live, encoded in *. rewrite N1, N2, N3, N4, N5. rt_cbn. splits; auto; discriminate.
Qed.

Lemma thread_live : forall small t t', inv small t -> inv_scan t -> inv_live t -> k_step t = Some t' -> inv_live t'.
Proof.
  intros small t t' HI HSc H E. pose proof HSc as (A & B & _). unfold k_step in E. destruct (t_kpc t) eqn:EP; try discriminate E.
  - apply some_inj in E. subst t'. eapply live_same; eauto. apply Z.le_refl.
  - apply some_inj in E. subst t'. assert (DG := dict_grows _ _ HI). eapply live_same; eauto; unfold k_dict; destruct (_ <? _); auto; destruct (encodeNewDictionaryEntries _ _ _) as ((e & n) & d); reflexivity.
  - destruct (t_kfull t); [apply some_inj in E; subst t'; eapply live_same; eauto; apply Z.le_refl|]. destruct (t_bufs t); [apply some_inj in E; subst t'; eapply live_same; eauto; apply Z.le_refl|].
    destruct (on_ring _ _ _) as [t1|] eqn:E1; [|discriminate]. apply on_ring_out in E1. destruct E1 as (b1 & r & _ & _ & ->). apply some_inj in E. subst t'. eapply live_same; eauto; apply Z.le_refl.
  - destruct (nth_error _ _) as [b|]; [|discriminate].
    assert (ON : forall l t1 t2, on_ring (Z.to_nat (t_ki t)) l t1 = Some t2 -> inv_live t1 -> inv_live t2).
    { intros l t1 t2 EO HL. apply on_ring_out in EO. destruct EO as (b1 & r & _ & _ & ->). eapply live_same; eauto; apply Z.le_refl. }
    destruct (c_pc _); try discriminate E; eauto.
    destruct (0 <? n); [apply some_inj in E; subst t'; eapply live_same; eauto; apply Z.le_refl|]. destruct (on_ring _ _ _) as [t1|] eqn:E1; [|discriminate].
    apply some_inj in E. subst t'. apply ON in E1; [|eapply live_same; eauto; apply Z.le_refl]. eapply live_same; eauto; apply Z.le_refl.
  - destruct (nth_error _ _) as [b|] eqn:EN; [|discriminate]. destruct (c_pc _) eqn:EC; try discriminate E. destruct (n =? 0) eqn:E0; [apply some_inj in E; subst t'; eapply live_same; eauto; apply Z.le_refl|].
    unfold k_encode in E. destruct (encodeLogMsgs _ _ _ _ _ _ _) as ((e & read) & cnt) eqn:EE.
    assert (G : 0 < getEncodedBytes e) by (eapply encode_grows; eauto; [apply Z.eqb_neq in E0; exact E0|apply H]).
    destruct H as (H1 & H2 & H3). destruct (read =? 0); [apply some_inj in E; subst t'; unfold inv_live, encoded; rt_cbn; splits; auto|].
    destruct (ring_run _ _ _); [|discriminate]. apply some_inj in E. subst t'. unfold inv_live, encoded; rt_cbn; splits; auto.
  - destruct (nth_error _ _) as [b|]; [|discriminate]. destruct (c_pc _); try discriminate E.
    destruct (on_ring _ _ _) as [t1|] eqn:E1; [|discriminate]. apply on_ring_out in E1. destruct E1 as (b1 & r & _ & _ & ->).
    destruct (nth_error _ _) as [b'|]; [|discriminate]. destruct (c_pc _); apply some_inj in E; subst t'; try (eapply live_same; eauto; apply Z.le_refl).
    unfold k_delete. destruct (remove_at _ _); eapply live_same; eauto; apply Z.le_refl.
  - apply some_inj in E. subst t'. eapply live_same; eauto; apply Z.le_refl.
  - apply some_inj in E. subst t'. unfold k_idle. destruct (_ =? 0); [|eapply live_same; eauto; apply Z.le_refl]. pose proof H as (H1 & H2 & H3). destruct (t_sync t) eqn:ES.
    + unfold inv_live, encoded in *. rt_cbn. splits; auto; discriminate.
    + destruct (t_outst t) eqn:EO; [unfold inv_live, encoded in *; rt_cbn; splits; auto|].
      destruct (notify_live (set_sync SYNC_COMPLETED (set_kpc KIo t))) as (N1 & N2 & N3 & N4 & N5). unfold inv_live, encoded in *. rewrite N1, N2, N3, N4, N5. rt_cbn. splits; auto; discriminate.
    + eapply live_same; eauto; apply Z.le_refl.
    + destruct (notify_live (set_kpc KIo t)) as (N1 & N2 & N3 & N4 & N5). unfold inv_live, encoded in *. rewrite N1, N2, N3, N4, N5. rt_cbn. rewrite ES. splits; auto; discriminate.
  - unfold k_io in E. destruct (t_outst t) eqn:EO; [|apply some_inj in E; subst t'; eapply live_same; eauto; apply Z.le_refl].
    destruct (t_flight t); [|destruct (t_kfull t); [discriminate|apply some_inj in E; subst t'; eapply live_same; eauto; apply Z.le_refl]].
    apply some_inj in E. subst t'. now apply finish_live.
  - apply some_inj in E. subst t'. unfold k_write. destruct (_ =? 0); [eapply live_same; eauto; apply Z.le_refl|]. destruct (swapBuffer _ _ _). destruct H as (H1 & H2 & H3).
    unfold inv_live, encoded in *. rt_cbn. splits; auto; discriminate.
Qed.

Lemma step_live : forall small l t t', inv small t -> inv_scan t -> inv_live t -> rt_step l t = Some t' -> inv_live t'.
Proof.
  intros small l t t' HI HSc H E. assert (S : forall s, t_kfull s = t_kfull t -> t_en s = t_en t -> t_sync s = t_sync t -> t_outst s = t_outst t -> t_osize s = t_osize t -> inv_live s).
  { intros s E1 E2 E3 E4 E5. eapply live_same; eauto. unfold encoded. rewrite E2. apply Z.le_refl. }
  destruct l; cbn [rt_step] in E; try (apply on_ring_out in E; destruct E as (b1 & r & _ & _ & ->); apply S; reflexivity).
  - apply some_inj in E. subst t'. now apply S.
  - apply some_inj in E. subst t'. now apply S.
  - destruct (nth_error _ _); [|discriminate]. apply some_inj in E. subst t'. now apply S.
  - destruct (nth_error (t_sites t) _); [|discriminate]. destruct (nth_error _ _); [|discriminate]. destruct (ring_step _ _ _); [|discriminate]. apply some_inj in E. subst t'. now apply S.
  - eapply thread_live; eauto.
  - destruct (nth_error _ _) as [(base & n)|]; [|discriminate]. apply some_inj in E. subst t'. now apply S.
  - destruct (t_kpc t); try discriminate E. destruct (t_flight t); [discriminate|]. destruct (_ && _); [|discriminate]. apply some_inj in E. subst t'. now apply finish_live.
  - destruct (snap_ok _ _); [|discriminate]. apply some_inj in E. subst t'. destruct H as (H1 & H2 & H3). unfold inv_live, encoded in *. rt_cbn. splits; auto; discriminate.
  - destruct (t_waiters t); [discriminate|]. apply some_inj in E. subst t'. now apply S.
  - destruct (t_waiters t); [discriminate|]. apply some_inj in E. subst t'. destruct (notify_live t) as (N1 & N2 & N3 & N4 & N5). now apply S.
  - destruct (t_sw t); try discriminate E. destruct (snap_ok _ _); [|discriminate]. apply some_inj in E. subst t'. destruct H as (H1 & H2 & H3). unfold inv_live, encoded in *. rt_cbn. splits; auto; discriminate.
  - destruct (t_sw t); try discriminate E. apply some_inj in E. subst t'. now apply S.
  - destruct (t_sw t); try discriminate E. destruct (t_kpc t); try discriminate E. destruct (encoder _ _ _ _ _ _ _); [|discriminate]. apply some_inj in E. subst t'.
    destruct H as (H1 & H2 & H3). unfold inv_live, encoded in *. rt_cbn. splits; auto; discriminate.
  - destruct (t_kpc t); try discriminate E. apply some_inj in E. subst t'. now apply S.
Qed.

Lemma orderly_live : forall t, reach orderly t -> inv_live t.
Proof.
  intros t R. induction R as [m size b1 b2 r u c t H0 H1 H2 H3 E|l t t' R IH HO E].
  - unfold rt_init in E. destruct (encoder _ _ _ _ _ _ _) eqn:EE; [|discriminate]. apply some_inj in E. subst t. unfold inv_live. rt_cbn. splits; try discriminate.
    unfold encoder, insertCheckpoint, e_space in EE. cbn [e_end e_wp] in EE. destruct (_ <? 33) eqn:EL; [discriminate|]. lia.
  - eapply step_live; eauto using orderly_inv, orderly_scan.
Qed.

(** ** A step of the thread *)

(** What the thread leaves alone; sync() calls return one by one; nothing visible is forgotten. *)
Definition kept (t t' : rt) : Prop :=
  t_sites t' = t_sites t /\ t_kexit t' = t_kexit t /\ t_osize t' = t_osize t /\ t_golds t' = t_golds t /\
  t_returned t' ++ map w_snap (t_waiters t') = t_returned t ++ map w_snap (t_waiters t) /\
  (forall ws, vis ws (t_bufs t ++ t_gone t) -> vis ws (t_bufs t' ++ t_gone t')).

Lemma kept_refl : forall t, kept t t.
Proof. intros. unfold kept. splits; auto. Qed.

Lemma kept_trans : forall a b c, kept a b -> kept b c -> kept a c.
Proof. unfold kept. intros a b c (A1 & A2 & A3 & A4 & A5 & A6) (B1 & B2 & B3 & B4 & B5 & B6). splits; try congruence. auto. Qed.

Lemma kept_notify : forall t, kept t (notify t).
Proof.
  intros t. unfold notify. destruct (t_waiters t) as [|w ws] eqn:EW; [apply kept_refl|]. unfold kept.
  destruct (w_switch w); rt_cbn; rewrite EW; cbn [map]; rewrite <- app_assoc; splits; auto.
Qed.

Lemma kept_plain : forall t t', t_sites t' = t_sites t -> t_kexit t' = t_kexit t -> t_osize t' = t_osize t -> t_golds t' = t_golds t ->
  t_returned t' = t_returned t -> t_waiters t' = t_waiters t -> t_bufs t' = t_bufs t -> t_gone t' = t_gone t -> kept t t'.
Proof. intros t t' E1 E2 E3 E4 E5 E6 E7 E8. unfold kept. rewrite E1, E2, E3, E4, E5, E6, E7, E8. splits; auto. Qed.

Lemma kept_ring : forall t t' j b b', nth_error (t_bufs t) j = Some b -> b_id b' = b_id b -> (forall n, visible (b_ring b) n = true -> visible (b_ring b') n = true) ->
  t_bufs t' = update j b' (t_bufs t) -> t_sites t' = t_sites t -> t_kexit t' = t_kexit t -> t_osize t' = t_osize t -> t_golds t' = t_golds t ->
  t_returned t' = t_returned t -> t_waiters t' = t_waiters t -> t_gone t' = t_gone t -> kept t t'.
Proof.
  intros t t' j b b' HB HI HV E0 E1 E2 E3 E4 E5 E6 E8. unfold kept. rewrite E0, E1, E2, E3, E4, E5, E6, E8. splits; auto.
  intros ws V. eapply vis_update; eauto.
Qed.

Lemma on_ring_kept : forall small t j l t', inv small t -> on_ring j l t = Some t' -> kept t t'.
Proof.
  intros small t j l t' HI E. apply on_ring_out in E. destruct E as (b & r & EN & ES & ->). pose proof (buf_at _ _ _ _ HI EN) as BO.
  eapply (kept_ring _ _ j b (Buf (b_id b) r (b_msgs b) (b_taken b))); rt_cbn; eauto. intros n. eapply visible_stp; [apply BO|exact ES].
Qed.

Lemma kept_finish : forall t, kept t (k_finish_io t).
Proof.
  intros t. unfold k_finish_io. destruct (t_sync t); try (apply kept_plain; reflexivity).
  eapply kept_trans; [|apply kept_notify]. apply kept_plain; reflexivity.
Qed.

Lemma thread_kept : forall small t t', inv small t -> k_step t = Some t' -> kept t t'.
Proof.
  intros small t t' HI E. unfold k_step in E. destruct (t_kpc t) eqn:EP; try discriminate E.
  - apply some_inj in E. subst t'. apply kept_plain; reflexivity.
  - apply some_inj in E. subst t'. unfold k_dict. destruct (_ <? _); [destruct (encodeNewDictionaryEntries _ _ _) as ((e & n) & d)|]; apply kept_plain; reflexivity.
  - destruct (t_kfull t); [apply some_inj in E; subst t'; apply kept_plain; reflexivity|]. destruct (t_bufs t) eqn:EB; [apply some_inj in E; subst t'; apply kept_plain; reflexivity|].
    destruct (on_ring _ _ _) as [t1|] eqn:E1; [|discriminate]. eapply on_ring_kept in E1; eauto. apply some_inj in E. subst t'. eapply kept_trans; [exact E1|]. apply kept_plain; reflexivity.
  - destruct (nth_error _ _) as [b|]; [|discriminate]. destruct (c_pc _); try discriminate E; try (eapply on_ring_kept; eauto; fail).
    destruct (0 <? n); [apply some_inj in E; subst t'; apply kept_plain; reflexivity|]. destruct (on_ring _ _ _) as [t1|] eqn:E1; [|discriminate].
    apply some_inj in E. subst t'. apply (on_ring_kept small) in E1; [|unfold inv, everything, sect in *; rt_cbn; exact HI].
    eapply kept_trans; [|eapply kept_trans; [exact E1|]]; apply kept_plain; reflexivity.
  - destruct (nth_error _ _) as [b|] eqn:EN; [|discriminate]. destruct (c_pc _) eqn:EC; try discriminate E. destruct (n =? 0); [apply some_inj in E; subst t'; apply kept_plain; reflexivity|].
    unfold k_encode in E. destruct (encodeLogMsgs _ _ _ _ _ _ _) as ((e & read) & cnt). destruct (read =? 0); [apply some_inj in E; subst t'; apply kept_plain; reflexivity|].
    destruct (ring_run _ _ _) as [r'|] eqn:ER; [|discriminate]. apply some_inj in E. subst t'. pose proof (buf_at _ _ _ _ HI EN) as BO.
    eapply (kept_ring _ _ (Z.to_nat (t_ki t)) b (Buf (b_id b) r' (b_msgs b) (b_taken b + Z.to_nat cnt))); rt_cbn; eauto. intros m.
    apply (visible_run SBS SBS_range _ _ _ m (proj1 BO) ER).
  - destruct (nth_error _ _) as [b|]; [|discriminate]. destruct (c_pc _); try discriminate E.
    destruct (on_ring _ _ _) as [t1|] eqn:E1; [|discriminate].
    assert (KI : t_ki t1 = t_ki t) by (apply on_ring_out in E1; destruct E1 as (b1 & r & _ & _ & ->); reflexivity). eapply on_ring_kept in E1; eauto.
    destruct (nth_error (t_bufs t1) _) as [b'|] eqn:EN; [|discriminate]. destruct (c_pc _); apply some_inj in E; subst t'; (eapply kept_trans; [exact E1|]); try (apply kept_plain; reflexivity).
    assert (VR : forall ws, vis ws (t_bufs t1 ++ t_gone t1) -> vis ws (remove_at (Z.to_nat (t_ki t1)) (t_bufs t1) ++ t_gone t1 ++ [b'])).
    { intros ws V id n W. destruct (V _ _ W) as (x & X1 & X2). exists x. split; [|exact X2].
      rewrite KI in *. clear - X1 EN. rewrite app_assoc. apply in_or_app. apply in_app_or in X1. destruct X1 as [X1 | X1].
      - apply (Permutation.Permutation_in _ (remove_perm _ _ _ _ EN)) in X1. destruct X1 as [-> | X1]; [right; now left|left; apply in_or_app; now left].
      - left. apply in_or_app. now right. }
    unfold k_delete. destruct (remove_at _ _) eqn:ED; unfold kept; rt_cbn; splits; auto.
  - apply some_inj in E. subst t'. apply kept_plain; reflexivity.
  - apply some_inj in E. subst t'. unfold k_idle. destruct (_ =? 0); [|apply kept_plain; reflexivity]. destruct (t_sync t); try (apply kept_plain; reflexivity).
    + destruct (t_outst t); [apply kept_plain; reflexivity|]. eapply kept_trans; [|apply kept_notify]. apply kept_plain; reflexivity.
    + eapply kept_trans; [|apply kept_notify]. apply kept_plain; reflexivity.
  - unfold k_io in E. destruct (t_outst t); [|apply some_inj in E; subst t'; apply kept_plain; reflexivity].
    destruct (t_flight t); [|destruct (t_kfull t); [discriminate|apply some_inj in E; subst t'; apply kept_plain; reflexivity]].
    apply some_inj in E. subst t'. apply kept_finish.
  - apply some_inj in E. subst t'. unfold k_write. destruct (_ =? 0); [apply kept_plain; reflexivity|]. destruct (swapBuffer _ _ _). apply kept_plain; reflexivity.
Qed.

Lemma take_result : forall r n k r', c_pc (r_c r) = CHave n -> (0 < k)%nat -> Z.of_nat k <= n ->
  ring_run SBS (LTake k :: repeat LConsumer (S k)) r = Some r' -> r_sent r' = r_sent r /\ zlen (r_got r') = zlen (r_got r) + Z.of_nat k.
Proof.
  intros [m cons p [cp c csb] sent got] n k r' EC K1 K2 E. cbn [r_c c_pc] in EC. subst cp. rewrite take_run in E by auto. apply some_inj in E. subst r'.
  cbn [r_sent r_got]. split; auto. rewrite zlen_app. unfold zlen. rewrite load_length. lia.
Qed.

(** Steps of peek and checkCanDelete. *)
Lemma ring_left : forall l r r', (l = LPeek \/ l = LCheck \/ (l = LConsumer /\ forall n k acc, c_pc (r_c r) <> CRead n k acc)) -> ring_step SBS l r = Some r' ->
  r_sent r' = r_sent r /\ r_got r' = r_got r /\ r_mem r' = r_mem r.
Proof.
  intros l r r' H E. destruct H as [-> | [-> | (-> & H)]]; unfold ring_step in E; cbv zeta in E.
  - destruct (c_pc (r_c r)); try discriminate; apply some_inj in E; subst r'; auto.
  - destruct (c_pc (r_c r)); try discriminate. destruct (n =? 0); [|discriminate]. apply some_inj in E; subst r'; auto.
  - destruct (consumer_step (r_c r) (r_mem r)) as [(c' & bs)|] eqn:EC; [|discriminate]. apply some_inj in E. subst r'. cbn [r_sent r_got r_mem]. splits; auto.
    unfold consumer_step in EC. destruct (c_pc (r_c r)) eqn:EP; try discriminate EC.
    + destruct (cached <? _); [destruct (0 <? _)|]; apply some_inj in EC; inversion EC; apply app_nil_r.
    + apply some_inj in EC. inversion EC. apply app_nil_r.
    + exfalso. eapply H. reflexivity.
    + apply some_inj in EC. inversion EC. apply app_nil_r.
Qed.

Lemma same_work : forall t t', t_bufs t' = t_bufs t -> t_sites t' = t_sites t -> t_nextp t' = t_nextp t -> work t' = work t.
Proof. intros t t' E1 E2 E3. unfold work. now rewrite E1, E2, E3. Qed.

Lemma update_zlen : forall A j (x : A) l, zlen (update j x l) = zlen l.
Proof. intros. unfold zlen. now rewrite update_length. Qed.

Lemma ring_work : forall t t' j b r ms k, nth_error (t_bufs t) j = Some b -> t_bufs t' = update j (Buf (b_id b) r ms k) (t_bufs t) ->
  r_sent r = r_sent (b_ring b) -> t_sites t' = t_sites t -> t_nextp t' = t_nextp t -> work t' = work t - (zlen (r_got r) - zlen (r_got (b_ring b))).
Proof.
  intros t t' j b r ms k HB E1 E2 E3 E4. unfold work. rewrite E1, E3, E4, update_zlen, (total_update _ _ _ _ HB). unfold left_over. cbn [b_ring]. rewrite E2. lia.
Qed.

Lemma notify_work : forall t, work (notify t) = work t.
Proof. intros t. unfold notify. destruct (t_waiters t) as [|w ws]; [auto|]. destruct (w_switch w); apply same_work; reflexivity. Qed.

Lemma notify_kpc : forall t, t_kpc (notify t) = t_kpc t.
Proof. intros t. unfold notify. destruct (t_waiters t) as [|w ws]; [auto|]. destruct (w_switch w); reflexivity. Qed.

Lemma dict_position : forall small t, inv small t -> t_nextp t <= t_nextp (k_dict t).
Proof.
  intros small t H. unfold k_dict. cbv zeta. destruct (t_nextp t <? zlen (t_sites t)) eqn:EN; [|apply Z.le_refl].
  destruct (encodeNewDictionaryEntries (t_en t) (t_nextp t) (t_sites t)) as [[e n] ret] eqn:EE. rt_cbn.
  inv_split H. destruct HEn as ((E1 & E2 & E3 & E4) & E5 & E6). destruct HSi as (S1 & S2).
  destruct HKn as (K1 & K2 & K3 & K4 & K5).
  apply dictionary_spec in EE; auto; try lia; [|unfold e_space; lia].
  apply Forall_forall. intros s Hs. eapply Forall_forall in S1; eauto. destruct S1 as (_ & _ & S3 & S4 & _).
  split; eapply Forall_impl; try eassumption; unfold nonzero_byte, is_byte; intros; cbn in *; lia.
Qed.

Lemma thread_down : forall small t t', inv small t -> inv_scan t -> t_flight t = [] -> t_kpc t <> KTop -> k_step t = Some t' ->
  work t' < work t \/ (work t' <= work t /\ 0 <= rank t' < rank t).
Proof.
  intros small t t' HI HSc HF HT E. assert (HN := bufs_small _ _ HI). pose proof HSc as (A & B & _). pose proof (zlen_nonneg _ (t_bufs t)) as N0.
  assert (D0 := dist_range (t_klast t) (t_ki t) (zlen (t_bufs t))).
  unfold k_step in E. destruct (t_kpc t) eqn:EP; try discriminate E; try congruence.
  - (* KDict *) apply some_inj in E. subst t'. pose proof (dict_position _ _ HI) as DP. right.
    assert (X : t_bufs (k_dict t) = t_bufs t /\ t_sites (k_dict t) = t_sites t /\ t_kfull (k_dict t) = t_kfull t /\ t_kpc (k_dict t) = KScan /\ t_ki (k_dict t) = t_klast t /\ t_klast (k_dict t) = t_klast t).
    { unfold k_dict. destruct (t_nextp t <? _); [destruct (encodeNewDictionaryEntries _ _ _) as [[e n] ret]|]; rt_cbn; splits; reflexivity. }
    destruct X as (X1 & X2 & X3 & X4 & X5 & X6). unfold work, rank. rewrite X1, X2, X3, X4, X5, X6, EP. split; [lia|].
    destruct (t_kfull t); [lia|]. destruct (Z.eq_dec (zlen (t_bufs t)) 0) as [-> | NZ]; [rewrite dist_nil; lia|].
    pose proof (dist_range (t_klast t) (t_klast t) (zlen (t_bufs t))). lia.
  - (* KScan *)
    destruct (t_kfull t) eqn:EF; [apply some_inj in E; subst t'; right; rewrite (same_work t) by reflexivity; unfold rank; rt_cbn; rewrite EP, EF; lia|].
    destruct (t_bufs t) as [|x xs] eqn:EB.
    { apply some_inj in E. subst t'. right. rewrite (same_work t) by reflexivity. unfold rank. rt_cbn. rewrite EP, EF, EB. change (zlen (@nil buf)) with 0.
      destruct A as (A1 & [A2 | (_ & A2)] & A3 & [A4 | (_ & A4)]); [change (zlen (@nil buf)) with 0 in *; lia..|]. rewrite A2, A4, dist_nil. lia. }
    rewrite <- EB in *. assert (N1 : 0 < zlen (t_bufs t)) by (rewrite EB, zlen_cons; pose proof (zlen_nonneg _ xs); lia). specialize (D0 N1).
    destruct (on_ring _ _ _) as [t1|] eqn:E1; [|discriminate]. apply on_ring_out in E1. destruct E1 as (b & r & EN & ES & ->). apply some_inj in E. subst t'. right.
    assert (RP : exists cp, c_pc (r_c r) = CPeek cp).
    { unfold ring_step in ES. cbv zeta in ES. destruct (c_pc (r_c (b_ring b))); try discriminate; apply some_inj in ES; subst r; eexists; reflexivity. }
    destruct RP as (cp & RP).
    destruct (ring_left _ _ _ (or_introl eq_refl) ES) as (L1 & L2 & _).
    split; [erewrite (ring_work t) by (eauto; rt_cbn; reflexivity); rewrite L2; lia|].
    unfold rank. rt_cbn. rewrite EP, EF, update_zlen, update_nth, EN, Nat.eqb_refl. cbn [option_map b_ring]. rewrite RP. lia.
  - (* KPeek *)
    assert (N1 : 0 < zlen (t_bufs t)) by (destruct A as (_ & _ & A3); lia). specialize (D0 N1).
    destruct (nth_error (t_bufs t) (Z.to_nat (t_ki t))) as [b|] eqn:EN; [|discriminate].
    assert (ON : forall l t1 t2, t_bufs t1 = t_bufs t -> t_sites t1 = t_sites t -> t_nextp t1 = t_nextp t -> t_klast t1 = t_klast t -> t_ki t1 = t_ki t -> t_kfull t1 = t_kfull t ->
       on_ring (Z.to_nat (t_ki t)) l t1 = Some t2 -> (l = LPeek \/ l = LCheck \/ (l = LConsumer /\ forall n k acc, c_pc (r_c (b_ring b)) <> CRead n k acc)) ->
       work t2 = work t /\ exists r, ring_step SBS l (b_ring b) = Some r /\ t_bufs t2 = update (Z.to_nat (t_ki t)) (Buf (b_id b) r (b_msgs b) (b_taken b)) (t_bufs t) /\
         t_klast t2 = t_klast t /\ t_ki t2 = t_ki t /\ t_kfull t2 = t_kfull t /\ t_kpc t2 = t_kpc t1).
    { intros l t1 t2 X1 X2 X3 X4 X5 X6 EO HL. apply on_ring_out in EO. destruct EO as (b1 & r & EN1 & ES & ->). rewrite X1, EN in EN1. apply some_inj in EN1. subst b1.
      destruct (ring_left _ _ _ HL ES) as (L1 & L2 & _). rt_cbn. rewrite X1. split; [|exists r; splits; auto].
      erewrite (ring_work t) by (try exact EN; rt_cbn; rewrite ?X1; auto). rewrite L2. lia. }
    assert (RK : rank t = 10 * dist (t_klast t) (t_ki t) (zlen (t_bufs t)) + match c_pc (r_c (b_ring b)) with CPeek _ => 9 | CRoll _ => 8 | _ => 7 end).
    { unfold rank. rewrite EP, EN. cbn [option_map]. destruct (c_pc _); reflexivity. }
    assert (NX : forall t2, t_kpc t2 = KNext -> zlen (t_bufs t2) = zlen (t_bufs t) -> t_klast t2 = t_klast t -> t_ki t2 = t_ki t -> 0 <= rank t2 <= 10 * dist (t_klast t) (t_ki t) (zlen (t_bufs t)) + 1).
    { intros t2 Y1 Y2 Y3 Y4. unfold rank. rewrite Y1, Y2, Y3, Y4. destruct (t_kfull t2); [lia|]. destruct (_ =? t_klast t) eqn:EI; [lia|].
      destruct A as (A1 & [A2 | (A2 & _)] & A3); [|rewrite A2 in N1; change (zlen (@nil buf)) with 0 in N1; lia].
      rewrite dist_next by lia. lia. }
    destruct (c_pc (r_c (b_ring b))) eqn:EC; try discriminate E.
    + apply ON in E; auto; [|right; right; split; [auto|congruence]]. destruct E as (E1 & r & ES & E2 & E3 & E4 & E5 & E6). right. split; [lia|]. rewrite RK.
      unfold ring_step in ES. cbv zeta in ES. unfold consumer_step in ES. rewrite EC in ES.
      assert (X : match c_pc (r_c r) with CPeek _ => 9 | CRoll _ => 8 | _ => 7 end <= 8 /\ 0 <= match c_pc (r_c r) with CPeek _ => 9 | CRoll _ => 8 | _ => 7 end) by
        (destruct (cached <? _); [destruct (0 <? _)|]; apply some_inj in ES; subst r; cbn; lia).
      unfold rank. rewrite E6, E3, E4, E2, EP, update_zlen, update_nth, EN, Nat.eqb_refl. cbn [option_map b_ring]. destruct (c_pc (r_c r)); lia.
    + apply ON in E; auto; [|right; right; split; [auto|congruence]]. destruct E as (E1 & r & ES & E2 & E3 & E4 & E5 & E6). right. split; [lia|]. rewrite RK.
      unfold ring_step in ES. cbv zeta in ES. unfold consumer_step in ES. rewrite EC in ES. apply some_inj in ES. subst r.
      unfold rank. rewrite E6, E3, E4, E2, EP, update_zlen, update_nth, EN, Nat.eqb_refl. cbn [option_map b_ring r_c c_pc]. lia.
    + destruct (0 <? n).
      { apply some_inj in E. subst t'. right. rewrite (same_work t) by reflexivity. rewrite RK. unfold rank. rt_cbn. lia. }
      destruct (on_ring _ _ _) as [t1|] eqn:E1; [|discriminate]. apply some_inj in E. subst t'. apply ON in E1; auto.
      destruct E1 as (E1 & r & ES & E2 & E3 & E4 & E5 & E6). right. rewrite (same_work t1) by reflexivity. split; [lia|]. rewrite RK.
      destruct (s_dead _).
      * unfold rank. rt_cbn. rewrite E2, E3, E4, update_zlen. lia.
      * match goal with |- 0 <= rank ?x < _ => pose proof (NX x) as Y end. rt_cbn_in Y. rewrite E2, E3, E4, update_zlen in Y. specialize (Y eq_refl eq_refl eq_refl eq_refl). lia.
  - (* KEnc *)
    assert (N1 : 0 < zlen (t_bufs t)) by (destruct A as (_ & _ & A3); lia). specialize (D0 N1).
    destruct (nth_error (t_bufs t) (Z.to_nat (t_ki t))) as [b|] eqn:EN; [|discriminate]. destruct (c_pc (r_c (b_ring b))) eqn:EC; try discriminate E.
    destruct (n =? 0) eqn:E0.
    { apply some_inj in E. subst t'. right. rewrite (same_work t) by reflexivity. split; [lia|]. unfold rank. rt_cbn. rewrite EP. destruct (t_kfull t); [lia|].
      destruct (_ =? t_klast t) eqn:EI; [lia|]. destruct A as (A1 & [A2 | (A2 & _)] & A3); [|rewrite A2 in N1; change (zlen (@nil buf)) with 0 in N1; lia].
      rewrite dist_next by lia. lia. }
    pose proof (buf_at _ _ _ _ HI EN) as HO. pose proof HI as HI'. inv_split HI'.
    assert (HI0 : 0 <= b_id b < 2 ^ 32).
    { destruct HId as (_ & X & Y & _). eapply Forall_forall in X; [|apply in_or_app; left; apply in_map; eapply nth_error_In; eauto]. cbv beta in X. lia. }
    assert (n0 : 0 < n).
    { destruct (handed_messages _ _ _ _ HO EC) as (j & _ & X). cbv zeta in X. destruct X as (_ & X & _).
      pose proof (zlen_nonneg _ (concat (firstn (j - b_taken b) (skipn (b_taken b) (r_sent (b_ring b)))))). lia. }
    unfold k_encode in E. destruct HKn as (_ & _ & _ & _ & K5). rewrite K5 in E.
    destruct (encodeLogMsgs _ _ _ _ _ _ _) as [[e read] cnt] eqn:EE.
    destruct (buf_encode small (t_sites t) (Z.to_nat (t_nextp t)) b n (t_en t) (t_kwrap t) e read cnt HO EC n0 (proj1 HEn) HI0 EE) as (R1 & _).
    destruct (read =? 0) eqn:E1.
    { apply some_inj in E. subst t'. right. rewrite (same_work t) by reflexivity. split; [lia|]. unfold rank. rt_cbn. rewrite EP. lia. }
    destruct (ring_run _ _ _) as [r'|] eqn:ER; [|discriminate]. apply some_inj in E. subst t'. left.
    apply Z.eqb_neq in E1. assert (Z1 : (0 < Z.to_nat read)%nat) by (clear - R1 E1; lia). assert (Z2 : Z.of_nat (Z.to_nat read) <= n) by (clear - R1; lia).
    destruct (take_result _ n (Z.to_nat read) _ EC Z1 Z2 ER) as (T1 & T2).
    erewrite (ring_work t) by (eauto; rt_cbn; reflexivity). lia.
  - (* KCheck *)
    assert (N1 : 0 < zlen (t_bufs t)) by (destruct A as (_ & _ & A3); lia). specialize (D0 N1).
    destruct (nth_error (t_bufs t) (Z.to_nat (t_ki t))) as [b|] eqn:EN; [|discriminate]. destruct (c_pc (r_c (b_ring b))) eqn:EC; try discriminate E.
    destruct (on_ring _ _ _) as [t1|] eqn:E1; [|discriminate]. apply on_ring_out in E1. destruct E1 as (b1 & r & EN1 & ES & ->). rewrite EN in EN1. apply some_inj in EN1. subst b1.
    assert (HL : LConsumer = LPeek \/ LConsumer = LCheck \/ (LConsumer = LConsumer /\ forall n k acc, c_pc (r_c (b_ring b)) <> CRead n k acc)) by (right; right; split; [auto|congruence]).
    destruct (ring_left _ _ _ HL ES) as (L1 & L2 & _).
    set (t1 := set_bufs _ t) in *. assert (W1 : work t1 = work t).
    { erewrite (ring_work t) by (try exact EN; unfold t1; rt_cbn; auto). rewrite L2. lia. }
    destruct (nth_error (t_bufs t1) _) as [b'|] eqn:EN1; [|discriminate].
    assert (NX : forall t2, t_kpc t2 = KNext -> zlen (t_bufs t2) = zlen (t_bufs t) -> t_klast t2 = t_klast t -> t_ki t2 = t_ki t -> 0 <= rank t2 < rank t).
    { intros t2 Y1 Y2 Y3 Y4. unfold rank. rewrite Y1, Y2, Y3, Y4, EP. destruct (t_kfull t2); [lia|]. destruct (_ =? t_klast t) eqn:EI; [lia|].
      destruct A as (A1 & [A2 | (A2 & _)] & A3); [|rewrite A2 in N1; change (zlen (@nil buf)) with 0 in N1; lia].
      rewrite dist_next by lia. lia. }
    assert (NB : zlen (t_bufs t1) = zlen (t_bufs t)) by (subst t1; rt_cbn; apply update_zlen).
    destruct (c_pc (r_c (b_ring b'))); apply some_inj in E; subst t';
      try (right; split; [rewrite (same_work t1) by reflexivity; lia|]; apply NX; rt_cbn; auto; fail).
    left. assert (KI : t_ki t1 = t_ki t) by reflexivity.
    assert (LO : left_over b' = left_over b).
    { unfold t1 in EN1. rt_cbn_in EN1. rewrite update_nth, EN, Nat.eqb_refl in EN1. apply some_inj in EN1. subst b'. unfold left_over. cbn [b_ring]. now rewrite L1, L2. }
    pose proof (left_nonneg _ _ _ (buf_at _ _ _ _ HI EN)) as LN.
    assert (LB : (Z.to_nat (t_ki t) < length (t_bufs t1))%nat) by (apply nth_error_Some; congruence).
    assert (X : total (remove_at (Z.to_nat (t_ki t)) (t_bufs t1)) + zlen (remove_at (Z.to_nat (t_ki t)) (t_bufs t1)) < total (t_bufs t1) + zlen (t_bufs t1)).
    { rewrite (total_remove _ _ _ EN1). unfold zlen. rewrite remove_length by exact LB. lia. }
    rewrite <- W1. unfold k_delete. rewrite KI. destruct (remove_at _ _) eqn:ED; unfold work in *; rt_cbn; rewrite ?ED in *; lia.
  - (* KNext *)
    apply some_inj in E. subst t'. right. unfold k_next. rewrite (same_work t) by reflexivity. split; [lia|].
    destruct A as (A1 & A2 & A3 & A4). assert (N1 : 0 < zlen (t_bufs t)) by (destruct (t_bufs t) as [|x xs]; [congruence|rewrite zlen_cons; pose proof (zlen_nonneg _ xs); lia]).
    unfold rank. rt_cbn. rewrite EP. set (i := to_u 64 (t_ki t + 1) mod zlen (t_bufs t)) in *.
    pose proof (dist_range (t_klast t) i (zlen (t_bufs t)) N1). destruct (i =? t_klast t); destruct (t_kfull t); lia.
  - (* KIdle *)
    apply some_inj in E. subst t'. right. assert (RK : rank t = 3) by (unfold rank; now rewrite EP). rewrite RK. unfold k_idle.
    destruct (_ =? 0); [|rewrite (same_work t) by reflexivity; unfold rank; rt_cbn; lia]. destruct (t_sync t); rewrite ?notify_work.
    + rewrite (same_work t) by reflexivity; unfold rank; rt_cbn; lia.
    + destruct (t_outst t); rewrite ?notify_work; (rewrite (same_work t) by reflexivity; unfold rank; rewrite ?notify_kpc; rt_cbn; lia).
    + rewrite (same_work t) by reflexivity; unfold rank; rt_cbn; lia.
    + rewrite (same_work t) by reflexivity; unfold rank; rewrite ?notify_kpc; rt_cbn; lia.
  - (* KIo *)
    unfold k_io in E. rewrite HF in E. right. assert (RK : rank t = 2) by (unfold rank; now rewrite EP). rewrite RK.
    destruct (t_outst t); apply some_inj in E; subst t'; [|rewrite (same_work t) by reflexivity; unfold rank; rt_cbn; lia].
    unfold k_finish_io. destruct (t_sync t); rewrite ?notify_work; (rewrite (same_work t) by reflexivity; unfold rank; rewrite ?notify_kpc; rt_cbn; lia).
  - (* KWrite *)
    apply some_inj in E. subst t'. right. assert (RK : rank t = 1) by (unfold rank; now rewrite EP). rewrite RK. unfold k_write. destruct (_ =? 0); [|destruct (swapBuffer _ _ _)];
      (rewrite (same_work t) by reflexivity; unfold rank; rt_cbn; lia).
Qed.

(** ** The thread and its writes, and nothing else *)

(** The compression thread takes a step, or its write completes. *)
Definition solo (l : rlabel) : Prop := l = RThread \/ l = RIoDone 0.

Definition leads (t t' : rt) : Prop := exists ls, Forall solo ls /\ rt_run ls t = Some t'.

Lemma leads_refl : forall t, leads t t.
Proof. intros t. exists []. split; [constructor|reflexivity]. Qed.

Lemma leads_step : forall l t t1 t', solo l -> rt_step l t = Some t1 -> leads t1 t' -> leads t t'.
Proof. intros l t t1 t' HL E (ls & A & B). exists (l :: ls). split; [constructor; auto|]. cbn [rt_run]. now rewrite E. Qed.

Lemma leads_trans : forall a b c, leads a b -> leads b c -> leads a c.
Proof.
  intros a b c (ls & A & B). revert a A B. induction ls as [|l ls IH]; intros a A B H; cbn [rt_run] in B.
  - apply some_inj in B. now subst.
  - destruct (rt_step l a) as [a1|] eqn:E; [|discriminate]. inversion A; subst. eapply leads_step; eauto.
Qed.

Section Small.

(** All messages are smaller than half a staging buffer. *)
Variable small : Prop.

Definition good (t : rt) : Prop := inv small t /\ inv_scan t /\ inv_live t.

(** Twice the largest message, and a header, fit into an output buffer. *)
Definition room (t : rt) : Prop := SBS + 25 <= t_osize t /\ (small \/ 2 * SBS + 25 <= t_osize t).

Lemma room_kept : forall t t', kept t t' -> room t -> room t'.
Proof. intros t t' (_ & _ & E & _). unfold room. now rewrite E. Qed.

Definition goes (t t' : rt) : Prop := leads t t' /\ good t' /\ kept t t'.

Lemma goes_refl : forall t, good t -> goes t t.
Proof. intros t H. unfold goes. split; [apply leads_refl|]. split; [exact H|apply kept_refl]. Qed.

Lemma goes_trans : forall a b c, goes a b -> goes b c -> goes a c.
Proof. intros a b c (A1 & A2 & A3) (B1 & B2 & B3). split; [eapply leads_trans; eauto|]. split; [auto|eapply kept_trans; eauto]. Qed.

Lemma goes_thread : forall t t', good t -> k_step t = Some t' -> goes t t'.
Proof.
  intros t t' (A & B & C) E. split; [|split].
  - eapply leads_step; [left; reflexivity|exact E|apply leads_refl].
  - split; [eapply thread_inv; eauto|]. split; [eapply thread_scan; eauto|eapply thread_live; eauto].
  - eapply thread_kept; eauto.
Qed.

(** The write in flight completes. *)
Lemma goes_io : forall t, good t -> exists t', goes t t' /\ t_flight t' = [] /\ t_kpc t' = t_kpc t /\ t_en t' = t_en t /\ work t' = work t /\ t_outst t' = t_outst t /\ t_sync t' = t_sync t /\
  t_waiters t' = t_waiters t.
Proof.
  intros t HG. pose proof HG as (A & B & C). pose proof A as A'. inv_split A'. destruct HFl as [(F1 & _) | (_ & n & F1 & _)].
  - exists t. split; [now apply goes_refl|]. splits; auto.
  - assert (E : exists t', rt_step (RIoDone 0) t = Some t') by (cbn [rt_step]; rewrite F1; cbn [nth_error]; eauto). destruct E as (t' & E). exists t'.
    assert (X : t' = set_flight [] (set_file (t_file t ++ load (e_mem (t_en t)) (t_other t) (Z.to_nat n)) (set_gfile (t_gfile t ++ t_gflight t) (set_gflight [] t)))).
    { cbn [rt_step] in E. rewrite F1 in E. cbn [nth_error remove_at firstn skipn app] in E. now apply some_inj in E. }
    split.
    + split; [eapply leads_step; [right; reflexivity|exact E|apply leads_refl]|]. split; [|subst t'; apply kept_plain; reflexivity].
      split; [eapply (step_inv_rt _ (RIoDone 0)); eauto; exact I|]. split; [eapply step_scan; eauto|eapply step_live; eauto].
    + subst t'. rt_cbn. splits; try reflexivity.
Qed.

Lemma steps : forall t, good t -> t_flight t = [] -> t_kpc t <> KExit -> exists t', k_step t = Some t'.
Proof.
  intros t (A & B & C) HF HX. destruct (k_step t) as [t'|] eqn:E; [eauto|]. exfalso.
  destruct (stuck_where _ t A B E) as [X | (_ & _ & X & _)]; auto.
Qed.

Lemma good_work : forall t, good t -> 0 <= work t.
Proof. intros t (A & _). eapply work_nonneg; eauto. Qed.

Lemma swap_empty : forall e b s e' x, swapBuffer e b s = (e', x) -> getEncodedBytes e' = 0.
Proof. intros e b s e' x E. unfold swapBuffer in E. inversion E. unfold getEncodedBytes. cbn [e_wp e_base]. lia. Qed.

(** How the thread comes to the top of its loop. *)
Lemma at_top : forall t t', good t -> t_flight t = [] -> t_kpc t <> KTop -> k_step t = Some t' ->
  (t_kpc t' <> KTop /\ t_kpc t' <> KExit /\ t_flight t' = []) \/ (t_kpc t' = KTop /\ encoded t' = 0).
Proof.
  intros t t' HG HF HT E. unfold k_step in E. destruct (t_kpc t) eqn:EP; try discriminate E; try congruence.
  - apply some_inj in E. subst t'. left. unfold k_dict. destruct (_ <? _); [destruct (encodeNewDictionaryEntries _ _ _) as ((e & n) & d)|]; rt_cbn; splits; auto; discriminate.
  - left. destruct (t_kfull t); [apply some_inj in E; subst t'; rt_cbn; splits; auto; discriminate|]. destruct (t_bufs t); [apply some_inj in E; subst t'; rt_cbn; splits; auto; discriminate|].
    destruct (on_ring _ _ _) as [t1|] eqn:E1; [|discriminate]. apply on_ring_out in E1. destruct E1 as (b1 & r & _ & _ & ->). apply some_inj in E. subst t'. rt_cbn. splits; auto; discriminate.
  - left. destruct (nth_error _ _) as [b|]; [|discriminate]. destruct (c_pc _); try discriminate E.
    1,2: (apply on_ring_out in E; destruct E as (b1 & r & _ & _ & ->); rt_cbn; rewrite EP; splits; auto; discriminate).
    destruct (0 <? n); [apply some_inj in E; subst t'; rt_cbn; splits; auto; discriminate|]. destruct (on_ring _ _ _) as [t1|] eqn:E1; [|discriminate].
    apply on_ring_out in E1. destruct E1 as (b1 & r & _ & _ & ->). apply some_inj in E. subst t'. rt_cbn. destruct (s_dead _); splits; auto; discriminate.
  - left. destruct (nth_error _ _) as [b|]; [|discriminate]. destruct (c_pc _); try discriminate E. destruct (n =? 0); [apply some_inj in E; subst t'; rt_cbn; splits; auto; discriminate|].
    unfold k_encode in E. destruct (encodeLogMsgs _ _ _ _ _ _ _) as ((e & read) & cnt). destruct (read =? 0); [apply some_inj in E; subst t'; rt_cbn; splits; auto; discriminate|].
    destruct (ring_run _ _ _); [|discriminate]. apply some_inj in E. subst t'. rt_cbn. rewrite EP. splits; auto; discriminate.
  - left. destruct (nth_error _ _) as [b|]; [|discriminate]. destruct (c_pc _); try discriminate E.
    destruct (on_ring _ _ _) as [t1|] eqn:E1; [|discriminate]. apply on_ring_out in E1. destruct E1 as (b1 & r & _ & _ & ->).
    destruct (nth_error _ _) as [b'|]; [|discriminate]. destruct (c_pc _); apply some_inj in E; subst t'; try (rt_cbn; splits; auto; discriminate).
    unfold k_delete. destruct (remove_at _ _); rt_cbn; splits; auto; discriminate.
  - apply some_inj in E. subst t'. left. unfold k_next. rt_cbn. destruct (_ =? _); splits; auto; discriminate.
  - apply some_inj in E. subst t'. unfold k_idle. destruct (encoded t =? 0) eqn:E0; [|left; rt_cbn; splits; auto; discriminate].
    assert (N : forall s, t_kpc (notify s) = t_kpc s /\ t_flight (notify s) = t_flight s) by (intros s; unfold notify; destruct (t_waiters s) as [|w ws]; [auto|destruct (w_switch w); auto]).
    destruct (t_sync t); [right; rt_cbn; split; auto; unfold encoded; rt_cbn; now apply Z.eqb_eq|left..].
    + destruct (t_outst t); [|destruct (N (set_sync SYNC_COMPLETED (set_kpc KIo t))) as (-> & ->)]; rt_cbn; splits; auto; discriminate.
    + rt_cbn; splits; auto; discriminate.
    + destruct (N (set_kpc KIo t)) as (-> & ->). rt_cbn. splits; auto; discriminate.
  - left. unfold k_io in E. rewrite HF in E. destruct (t_outst t); apply some_inj in E; subst t'; [|rt_cbn; splits; auto; discriminate].
    assert (N : forall s, t_kpc (notify s) = t_kpc s /\ t_flight (notify s) = t_flight s) by (intros s; unfold notify; destruct (t_waiters s) as [|w ws]; [auto|destruct (w_switch w); auto]).
    unfold k_finish_io. destruct (t_sync t); try (rt_cbn; splits; auto; discriminate).
    match goal with |- t_kpc (notify ?s) <> _ /\ _ => destruct (N s) as (-> & ->) end. rt_cbn. splits; auto; discriminate.
  - apply some_inj in E. subst t'. right. unfold k_write. destruct (encoded t =? 0) eqn:E0; [rt_cbn; split; auto; unfold encoded; rt_cbn; now apply Z.eqb_eq|].
    destruct (swapBuffer _ _ _) as (e' & x) eqn:ES. rt_cbn. split; auto. unfold encoded. rt_cbn. eapply swap_empty; eauto.
Qed.

(** The thread gets to the end of a round, or to a place on the way. *)
Lemma descend : forall (stop : kpc -> bool) (P : rt -> Prop), stop KTop = true ->
  (forall t t', good t -> t_flight t = [] -> t_kpc t <> KTop -> t_kpc t <> KExit -> P t -> stop (t_kpc t) = false -> k_step t = Some t' -> P t') ->
  forall W R t, good t -> t_flight t = [] -> t_kpc t <> KExit -> P t -> work t < Z.of_nat W -> (Z.to_nat (rank t) <= R)%nat ->
  exists t', goes t t' /\ stop (t_kpc t') = true /\ P t' /\ work t' <= work t /\ (t_kpc t' <> KTop -> t_flight t' = []).
Proof.
  intros stop P HS HP. induction W as [|W IHW]; [intros R t HG; pose proof (good_work t HG); lia|].
  induction R as [R IHR] using lt_wf_ind; intros t HG HF HX HPt HW HR.
  destruct (stop (t_kpc t)) eqn:EK.
  { exists t. split; [now apply goes_refl|]. splits; auto; try lia; discriminate. }
  assert (HT : t_kpc t <> KTop) by congruence.
  destruct (steps t HG HF HX) as (t1 & E). pose proof (goes_thread _ _ HG E) as G1. pose proof G1 as (_ & HG1 & _). pose proof HG as (A & B & _).
  pose proof (HP _ _ HG HF HT HX HPt EK E) as HP1. pose proof (thread_down _ _ _ A B HF HT E) as D. pose proof (good_work _ HG1) as N1.
  destruct (at_top _ _ HG HF HT E) as [(T1 & T2 & T3) | (T1 & T2)].
  - assert (X : exists t', goes t1 t' /\ stop (t_kpc t') = true /\ P t' /\ work t' <= work t1 /\ (t_kpc t' <> KTop -> t_flight t' = [])).
    { destruct D as [D | (D1 & D2)]; [eapply IHW; eauto; lia|]. apply (IHR (Z.to_nat (rank t1))); auto; lia. }
    destruct X as (t' & X1 & X2 & X3 & X4 & X5). exists t'. split; [eapply goes_trans; eauto|]. splits; auto. lia.
  - exists t1. split; [exact G1|]. rewrite T1. splits; auto; try lia. intros Z. congruence.
Qed.

(** Every round ends, with nothing left in the encoder. *)
Lemma to_top : forall t, good t -> t_kpc t <> KExit -> (t_kpc t = KTop -> encoded t = 0) ->
  exists t', goes t t' /\ t_kpc t' = KTop /\ t_flight t' = [] /\ encoded t' = 0 /\ work t' <= work t.
Proof.
  intros t HG HX HE. destruct (goes_io t HG) as (t0 & G0 & F0 & K0 & E0 & W0 & _). pose proof G0 as (_ & HG0 & _).
  destruct (descend (fun k => match k with KTop => true | _ => false end) (fun t => t_kpc t = KTop -> encoded t = 0)) with (W := S (Z.to_nat (work t0))) (R := Z.to_nat (rank t0)) (t := t0)
    as (t1 & G1 & K1 & P1 & W1 & _); auto; try congruence.
  - intros s s' S1 S2 S3 S4 _ _ S5 S6. destruct (at_top _ _ S1 S2 S3 S5) as [(X & _) | (_ & X)]; [congruence|exact X].
  - rewrite K0. unfold encoded in *. rewrite E0. auto.
  - lia.
  - destruct (t_kpc t1) eqn:EK; try discriminate K1. destruct G1 as (G1 & G2 & G3). destruct (goes_io t1 G2) as (t2 & G4 & F2 & K2 & E2 & W2 & _).
    exists t2. split; [eapply goes_trans; [exact G0|]; eapply goes_trans; [split; [exact G1|split; [exact G2|exact G3]]|exact G4]|].
    splits; auto; [congruence| |lia]. unfold encoded in *. rewrite E2. auto.
Qed.

(** ** A round that starts with an empty encoder *)

(** Nothing to do for this buffer. *)
Definition quiet (b : buf) : Prop := c_pos (r_c (b_ring b)) = s_pos (r_mem (b_ring b)) /\ s_dead (r_mem (b_ring b)) = false.

Definition looking (k : kpc) (r : ring) : Prop :=
  match k with
  | KPeek => match c_pc (r_c r) with
             | CPeek c => c = s_pos (r_mem r)
             | CRoll c => c = s_pos (r_mem r)
             | CHave 0 => c_pos (r_c r) = s_pos (r_mem r)
             | _ => True
             end
  | KEnc => c_pc (r_c r) <> CHave 0
  | KCheck => c_pos (r_c r) = s_pos (r_mem r)
  | _ => True
  end.

(** Nothing has been done since there was [W] to do, and nothing was found to do. *)
Definition idling (W : Z) (t : rt) : Prop :=
  work t < W \/
  (work t <= W /\ encoded t = 0 /\ t_nextp t = zlen (t_sites t) /\ t_kfull t = false /\ cov quiet (t_kpc t) (t_klast t) (t_ki t) (t_bufs t) /\
   (forall b, nth_error (t_bufs t) (Z.to_nat (t_ki t)) = Some b -> looking (t_kpc t) (b_ring b))).

Lemma first_message : forall t b n e read cnt, inv small t -> room t -> encoded t = 0 -> t_nextp t = zlen (t_sites t) ->
  nth_error (t_bufs t) (Z.to_nat (t_ki t)) = Some b -> c_pc (r_c (b_ring b)) = CHave n -> n <> 0 ->
  encodeLogMsgs (t_en t) (s_data (r_mem (b_ring b))) (c_pos (r_c (b_ring b))) (Z.min RELEASE n) (b_id b) (t_kwrap t) (t_shadow t) = (e, read, cnt) -> 0 < read.
Proof.
  intros t b n e read cnt HI HO HE HN EN EC N0 EE. pose proof (buf_at _ _ _ _ HI EN) as HB. inv_split HI.
  assert (HI0 : 0 <= b_id b < 2 ^ 32).
  { destruct HId as (_ & X & Y & _). eapply Forall_forall in X; [|apply in_or_app; left; apply in_map; eapply nth_error_In; eauto]. cbv beta in X. lia. }
  destruct (handed_messages _ _ _ _ HB EC) as (j & Hj & X). cbv zeta in X. destruct X as (X1 & X2 & X3 & X4).
  set (ms := firstn (j - b_taken b) (skipn (b_taken b) (b_msgs b))) in *. set (bs := firstn (j - b_taken b) (skipn (b_taken b) (r_sent (b_ring b)))) in *.
  destruct HKn as (_ & _ & _ & _ & K5). rewrite K5 in EE. pose proof (zlen_nonneg _ (concat bs)) as P0.
  pose proof X1 as (Y1 & Y2). destruct Y1 as [|x y ms' bs' (s & S1 & S2) Y1 ]; [cbn in X2; lia|].
  assert (LB : zlen y <= n /\ n <= SBS).
  { split; [rewrite <- X2; cbn [concat]; rewrite zlen_app; pose proof (zlen_nonneg _ (concat bs')); lia|].
    destruct HB as (RI & _). destruct RI as (R0 & f & R1 & R2 & _ & _ & _ & R3). rewrite EC in R3. cbn [cinv] in R3. destruct R3 as (_ & R3 & _).
    destruct (chain_head _ SBS_range _ _ _ _ _ _ R1 R2) as (V1 & _ & V2). unfold lim in R3. destruct (_ <? _) eqn:EL; [|lia]. apply Z.ltb_lt in EL. specialize (V2 EL). lia. }
  destruct HEn as (E1 & E2 & E3).
  destruct (C13_progress (t_sites t) (Call (t_en t) (Z.min RELEASE n) (b_id b) (t_kwrap t) (Z.to_nat (t_nextp t))) ms' bs' x y (s_data (r_mem (b_ring b))) (c_pos (r_c (b_ring b))) e read cnt);
    cbn [c_enc c_n c_tid c_np c_known]; auto.
  - unfold call_ok. cbn [c_enc c_n c_tid]. splits; auto; try lia. unfold RELEASE, SBS in *. lia.
  - apply HB.
  - rewrite X2. lia.
  - rewrite HN. unfold zlen. rewrite Nat2Z.id, firstn_all. assert (Z.to_nat (sm_id x) < length (t_sites t))%nat by (apply nth_error_Some; congruence).
    destruct S2 as ((S2 & _) & _). lia.
  - assert (L2 : 25 + 2 * zlen y <= t_osize t).
    { destruct HO as (O1 & [O2 | O2]); [|lia]. specialize (X4 O2). inversion X4 as [|? ? X5 _]; subst. unfold SBS in *. lia. }
    unfold encoded, getEncodedBytes in HE. destruct E1 as (_ & E1 & _). unfold e_space. lia.
  - unfold RELEASE. destruct (Z_le_dec (zlen y) (SBS / 2)); [left; lia|right]. split; [|lia]. unfold SBS. lia.
  - destruct S2 as (_ & S2). pose proof (staged_zlen s x) as S3. rewrite <- S2 in S3. pose proof (zlen_nonneg _ (imgs (si_params s) (sm_ns x) (sm_args x))). lia.
Qed.

Lemma delete_work : forall t b, nth_error (t_bufs t) (Z.to_nat (t_ki t)) = Some b -> 0 <= left_over b -> work (k_delete t b) < work t.
Proof.
  intros t b EN LN. assert (LB : (Z.to_nat (t_ki t) < length (t_bufs t))%nat) by (apply nth_error_Some; congruence).
  assert (X : total (remove_at (Z.to_nat (t_ki t)) (t_bufs t)) + zlen (remove_at (Z.to_nat (t_ki t)) (t_bufs t)) < total (t_bufs t) + zlen (t_bufs t)).
  { rewrite (total_remove _ _ _ EN). unfold zlen. rewrite remove_length by exact LB. lia. }
  unfold k_delete. destruct (remove_at _ _) eqn:ED; unfold work in *; rt_cbn; rewrite ?ED in *; lia.
Qed.

(** The first dictionary entry fits into an empty buffer. *)
Lemma dict_done : forall t, inv small t -> room t -> encoded t = 0 -> t_nextp t < zlen (t_sites t) -> t_nextp t < t_nextp (k_dict t).
Proof.
  intros t H HO HE HN. destruct HO as (HO & _). unfold k_dict. cbv zeta. replace (t_nextp t <? zlen (t_sites t)) with true by lia.
  destruct (encodeNewDictionaryEntries (t_en t) (t_nextp t) (t_sites t)) as [[e n] ret] eqn:EE. rt_cbn.
  inv_split H. destruct HEn as ((E1 & E2 & E3 & E4) & E5 & E6). destruct HSi as (S1 & S2).
  destruct HKn as (K1 & K2 & K3 & K4 & K5). unfold encoded, getEncodedBytes in HE.
  assert (SB : Forall site_bytes (t_sites t)).
  { apply Forall_forall. intros s Hs. eapply Forall_forall in S1; eauto. destruct S1 as (_ & _ & S3 & S4 & _).
    split; eapply Forall_impl; try eassumption; unfold nonzero_byte, is_byte; intros; cbn in *; lia. }
  assert (SP : e_space (t_en t) = t_osize t) by (unfold e_space; lia).
  apply dictionary_spec in EE; auto; [|lia..].
  destruct EE as [(D1 & _)|(D1 & D2 & D3)]; [unfold SBS in *; lia|]. cbv zeta in D3.
  destruct (Z.eq_dec n (t_nextp t)) as [-> | NE]; [|lia]. exfalso.
  destruct D3 as (_ & D3 & _ & D4 & D5 & _ & _ & _ & _ & D6). rewrite Z.sub_diag in D3. cbn [Z.to_nat firstn] in D3.
  destruct (nth_error (t_sites t) (Z.to_nat (t_nextp t))) as [s|] eqn:ES; [|apply nth_error_None in ES; unfold zlen in *; lia].
  specialize (D6 _ eq_refl). eapply Forall_forall in S1; [|eapply nth_error_In; exact ES]. destruct S1 as (_ & _ & _ & _ & S3 & S4).
  assert (zlen (dict_entry s) <= 9 + 2 ^ 16 + 2 ^ 16) by (unfold dict_entry; rewrite ?zlen_app, ?le_bytes_zlen, ?zlen_cons; change (zlen (@nil Z)) with 0; lia).
  unfold e_space in D6. rewrite D3, D5 in D6. unfold dict_bytes in D6. cbn [map concat] in D6. rewrite ?zlen_app, ?le_bytes_zlen in D6. change (zlen (@nil Z)) with 0 in D6.
  unfold SBS in *. lia.
Qed.

Definition in_scan (k : kpc) : bool := match k with KDict | KScan | KPeek | KEnc | KCheck | KNext => true | _ => false end.

Lemma quiet_update : forall k k' last i bufs b r ms n, nth_error bufs (Z.to_nat i) = Some b -> cov quiet k last i bufs -> (forall p, covered k' last i p -> covered k last i p) ->
  (quiet b -> c_pos (r_c r) = c_pos (r_c (b_ring b))) -> r_mem r = r_mem (b_ring b) -> cov quiet k' last i (update (Z.to_nat i) (Buf (b_id b) r ms n) bufs).
Proof.
  intros k k' last i bufs b r ms n EN HC HK H1 H2. apply cov_update with (Q := quiet) (b := b); auto.
  - intros p x Hp Hc. eapply HC; eauto.
  - unfold quiet. intros (X & Y). cbn [b_ring]. rewrite H2. split; auto. rewrite H1; auto. split; auto.
Qed.

Lemma idle_step : forall W t t', good t -> t_flight t = [] -> room t -> in_scan (t_kpc t) = true -> t_kpc t <> KDict -> idling W t -> k_step t = Some t' -> idling W t'.
Proof.
  intros W t t' HG HF HO HS HD H E. pose proof HG as (HI & HSc & HL). assert (HN := bufs_small _ _ HI).
  assert (HT : t_kpc t <> KTop) by (destruct (t_kpc t); discriminate). pose proof (thread_down _ _ _ HI HSc HF HT E) as D.
  destruct H as [H | (H1 & H2 & H3 & H4 & H5 & H6)]; [left; lia|]. pose proof HSc as (A & B & _).
  unfold k_step in E. destruct (t_kpc t) eqn:EP; try discriminate E; try discriminate HS; try congruence.
  - (* KScan *) rewrite H4 in E. destruct (t_bufs t) as [|x xs] eqn:EB.
    { apply some_inj in E. subst t'. right. unfold encoded in *. rewrite (same_work t) by reflexivity. rt_cbn. rewrite EB. splits; auto. intros p b Hp. destruct p; discriminate. }
    rewrite <- EB in *. destruct (on_ring _ _ _) as [t1|] eqn:E1; [|discriminate]. apply on_ring_out in E1. destruct E1 as (b & r & EN & ES & ->). apply some_inj in E. subst t'. right.
    destruct (ring_left _ _ _ (or_introl eq_refl) ES) as (L1 & L2 & L3).
    assert (RP : c_pc (r_c r) = CPeek (s_pos (r_mem (b_ring b))) /\ c_pos (r_c r) = c_pos (r_c (b_ring b))).
    { unfold ring_step in ES. cbv zeta in ES. destruct (c_pc (r_c (b_ring b))); try discriminate; apply some_inj in ES; subst r; split; reflexivity. }
    destruct RP as (RP & RQ). split; [destruct D as [D | D]; lia|]. unfold encoded in *. rt_cbn. splits; auto.
    + eapply quiet_update; eauto.
    + intros b' Hb. rewrite update_nth, EN, Nat.eqb_refl in Hb. apply some_inj in Hb. subst b'. cbn [looking b_ring]. rewrite RP, L3. reflexivity.
  - (* KPeek *)
    destruct (nth_error (t_bufs t) (Z.to_nat (t_ki t))) as [b|] eqn:EN; [|discriminate]. pose proof (buf_at _ _ _ _ HI EN) as HB. specialize (H6 _ eq_refl). cbn [looking] in H6.
    destruct HB as (RI & _). destruct RI as (R0 & f & R1 & R2 & _ & _ & _ & R3). destruct (chain_head _ SBS_range _ _ _ _ _ _ R1 R2) as (V1 & _ & V2).
    destruct (c_pc (r_c (b_ring b))) eqn:EC; try discriminate E.
    + subst cached. apply on_ring_out in E. destruct E as (b1 & r & EN1 & ES & ->). rewrite EN in EN1. apply some_inj in EN1. subst b1.
      assert (HL' : LConsumer = LPeek \/ LConsumer = LCheck \/ (LConsumer = LConsumer /\ forall n k acc, c_pc (r_c (b_ring b)) <> CRead n k acc)) by (right; right; split; [auto|congruence]).
      destruct (ring_left _ _ _ HL' ES) as (L1 & L2 & L3). right. split; [destruct D as [D | D]; lia|]. unfold encoded in *. rt_cbn. rewrite EP.
      unfold ring_step in ES. cbv zeta in ES. unfold consumer_step in ES. rewrite EC in ES.
      assert (RQ : c_pos (r_c r) = c_pos (r_c (b_ring b)) /\ looking KPeek r).
      { cbn [looking]. destruct (s_pos (r_mem (b_ring b)) <? c_pos (r_c (b_ring b))) eqn:EL.
        - apply Z.ltb_lt in EL. destruct (V2 EL) as (V3 & _). destruct (0 <? _) eqn:E0; apply some_inj in ES; subst r; cbn [r_c c_pos c_pc r_mem]; split; auto.
          apply Z.ltb_lt in E0. destruct (to_u 64 _) eqn:EU; auto; lia.
        - apply Z.ltb_ge in EL. apply some_inj in ES. subst r. cbn [r_c c_pos c_pc r_mem]. split; auto. unfold SBS in V1.
          rewrite to_u_id by lia. destruct (_ - _) eqn:EU; auto; lia. }
      destruct RQ as (RQ & RL). splits; auto.
      * eapply quiet_update; eauto.
      * intros b' Hb. rewrite update_nth, EN, Nat.eqb_refl in Hb. apply some_inj in Hb. subst b'. exact RL.
    + subst cached. apply on_ring_out in E. destruct E as (b1 & r & EN1 & ES & ->). rewrite EN in EN1. apply some_inj in EN1. subst b1.
      assert (HL' : LConsumer = LPeek \/ LConsumer = LCheck \/ (LConsumer = LConsumer /\ forall n k acc, c_pc (r_c (b_ring b)) <> CRead n k acc)) by (right; right; split; [auto|congruence]).
      destruct (ring_left _ _ _ HL' ES) as (L1 & L2 & L3). right. split; [destruct D as [D | D]; lia|]. unfold encoded in *. rt_cbn. rewrite EP.
      unfold ring_step in ES. cbv zeta in ES. unfold consumer_step in ES. rewrite EC in ES. apply some_inj in ES. subst r. cbn [cinv] in R3. splits; auto.
      * eapply quiet_update; eauto. intros (X & _). lia.
      * intros b' Hb. rewrite update_nth, EN, Nat.eqb_refl in Hb. apply some_inj in Hb. subst b'. cbn [looking b_ring r_c c_pc r_mem c_pos]. unfold SBS in V1.
        rewrite to_u_id by lia. destruct (s_pos _) eqn:EU; auto; lia.
    + destruct (0 <? n) eqn:E0.
      { apply some_inj in E. subst t'. right. unfold encoded in *. rewrite (same_work t) by reflexivity. rt_cbn. splits; auto.
        intros b' Hb. rewrite EN in Hb. apply some_inj in Hb. subst b'. cbn [looking]. rewrite EC. intros X. inversion X. lia. }
      destruct (on_ring _ _ _) as [t1|] eqn:E1; [|discriminate]. apply some_inj in E. apply on_ring_out in E1. destruct E1 as (b1 & r & EN1 & ES & ->). rt_cbn_in EN1. rewrite EN in EN1. apply some_inj in EN1. subst b1 t'.
      destruct (ring_left _ _ _ (or_intror (or_introl eq_refl)) ES) as (L1 & L2 & L3). right. split; [destruct D as [D | D]; lia|]. unfold encoded in *. rt_cbn.
      unfold ring_step in ES. cbv zeta in ES. rewrite EC in ES. destruct (n =? 0) eqn:EZ; [|discriminate]. apply Z.eqb_eq in EZ. subst n. apply some_inj in ES.
      assert (RQ : c_pos (r_c r) = c_pos (r_c (b_ring b))) by (subst r; reflexivity). splits; auto.
      * destruct (s_dead (r_mem (b_ring b))) eqn:ED; [eapply quiet_update; eauto|]. apply cov_update with (Q := quiet) (b := b); auto.
        -- eapply cov_pass; [|exact A|exact HN|exact EN|split; [exact H6|exact ED]|exact H5]. auto.
        -- unfold quiet. cbn [b_ring]. now rewrite RQ, L3.
      * intros b' Hb. rewrite update_nth, EN, Nat.eqb_refl in Hb. apply some_inj in Hb. subst b'. destruct (s_dead _); cbn [looking b_ring]; auto. now rewrite RQ, L3.
  - (* KEnc *)
    destruct (nth_error (t_bufs t) (Z.to_nat (t_ki t))) as [b|] eqn:EN; [|discriminate]. specialize (H6 _ eq_refl). cbn [looking] in H6.
    destruct (c_pc (r_c (b_ring b))) eqn:EC; try discriminate E. destruct (n =? 0) eqn:EZ; [exfalso; apply H6; f_equal; lia|]. apply Z.eqb_neq in EZ.
    unfold k_encode in E. destruct (encodeLogMsgs _ _ _ _ _ _ _) as [[e read] cnt] eqn:EE.
    pose proof (first_message _ _ _ _ _ _ HI HO H2 H3 EN EC EZ EE) as FM. replace (read =? 0) with false in E by lia.
    destruct (ring_run _ _ _) as [r'|] eqn:ER; [|discriminate]. apply some_inj in E. subst t'. left. destruct D as [D | (_ & D)]; [lia|]. exfalso.
    unfold rank in D. rt_cbn_in D. rewrite EP, update_zlen in D. lia.
  - (* KCheck *)
    destruct (nth_error (t_bufs t) (Z.to_nat (t_ki t))) as [b|] eqn:EN; [|discriminate]. specialize (H6 _ eq_refl). cbn [looking] in H6.
    destruct (c_pc (r_c (b_ring b))) eqn:EC; try discriminate E.
    destruct (on_ring _ _ _) as [t1|] eqn:E1; [|discriminate]. apply on_ring_out in E1. destruct E1 as (b1 & r & EN1 & ES & ->). rewrite EN in EN1. apply some_inj in EN1. subst b1.
    assert (HL' : LConsumer = LPeek \/ LConsumer = LCheck \/ (LConsumer = LConsumer /\ forall n k acc, c_pc (r_c (b_ring b)) <> CRead n k acc)) by (right; right; split; [auto|congruence]).
    destruct (ring_left _ _ _ HL' ES) as (L1 & L2 & L3).
    assert (W1 : work (set_bufs (update (Z.to_nat (t_ki t)) (Buf (b_id b) r (b_msgs b) (b_taken b)) (t_bufs t)) t) = work t).
    { erewrite (ring_work t) by (try exact EN; rt_cbn; auto). rewrite L2. lia. }
    rt_cbn_in E. rewrite update_nth, EN, Nat.eqb_refl in E. cbn [b_ring] in E.
    assert (RP : c_pc (r_c r) = CDeleted).
    { unfold ring_step in ES. cbv zeta in ES. unfold consumer_step in ES. rewrite EC in ES. apply some_inj in ES. subst r. cbn [r_c c_pc]. rewrite H6, Z.eqb_refl. reflexivity. }
    rewrite RP in E. apply some_inj in E. subst t'. left. rewrite <- W1 in H1. eapply Z.lt_le_trans; [|exact H1]. apply delete_work.
    + rt_cbn. rewrite update_nth, EN, Nat.eqb_refl. reflexivity.
    + pose proof (left_nonneg _ _ _ (buf_at _ _ _ _ HI EN)) as LN. unfold left_over in *. cbn [b_ring]. now rewrite L1, L2.
  - (* KNext *)
    apply some_inj in E. subst t'. right. unfold k_next, encoded in *. rewrite (same_work t) by reflexivity. rt_cbn.
    destruct (cov_next quiet _ _ _ A HN H5) as (C1 & C2 & C3). splits; auto. intros b Hb. destruct (_ =? t_klast t); exact I.
Qed.

Lemma scan_same : forall t t', in_scan (t_kpc t) = true -> k_step t = Some t' -> t_sync t' = t_sync t /\ t_waiters t' = t_waiters t.
Proof.
  intros t t' HS E. unfold k_step in E. destruct (t_kpc t) eqn:EP; try discriminate E; try discriminate HS.
  - apply some_inj in E. subst t'. unfold k_dict. destruct (_ <? _); [destruct (encodeNewDictionaryEntries _ _ _) as ((e & n) & d)|]; split; reflexivity.
  - destruct (t_kfull t); [apply some_inj in E; subst t'; split; reflexivity|]. destruct (t_bufs t); [apply some_inj in E; subst t'; split; reflexivity|].
    destruct (on_ring _ _ _) as [t1|] eqn:E1; [|discriminate]. apply on_ring_out in E1. destruct E1 as (b1 & r & _ & _ & ->). apply some_inj in E. subst t'. split; reflexivity.
  - destruct (nth_error _ _) as [b|]; [|discriminate]. destruct (c_pc _); try discriminate E.
    1,2: (apply on_ring_out in E; destruct E as (b1 & r & _ & _ & ->); split; reflexivity).
    destruct (0 <? n); [apply some_inj in E; subst t'; split; reflexivity|]. destruct (on_ring _ _ _) as [t1|] eqn:E1; [|discriminate].
    apply on_ring_out in E1. destruct E1 as (b1 & r & _ & _ & ->). apply some_inj in E. subst t'. split; reflexivity.
  - destruct (nth_error _ _) as [b|]; [|discriminate]. destruct (c_pc _); try discriminate E. destruct (n =? 0); [apply some_inj in E; subst t'; split; reflexivity|].
    unfold k_encode in E. destruct (encodeLogMsgs _ _ _ _ _ _ _) as ((e & read) & cnt). destruct (read =? 0); [apply some_inj in E; subst t'; split; reflexivity|].
    destruct (ring_run _ _ _); [|discriminate]. apply some_inj in E. subst t'. split; reflexivity.
  - destruct (nth_error _ _) as [b|]; [|discriminate]. destruct (c_pc _); try discriminate E.
    destruct (on_ring _ _ _) as [t1|] eqn:E1; [|discriminate]. apply on_ring_out in E1. destruct E1 as (b1 & r & _ & _ & ->).
    destruct (nth_error _ _) as [b'|]; [|discriminate]. destruct (c_pc _); apply some_inj in E; subst t'; try (split; reflexivity).
    unfold k_delete. destruct (remove_at _ _); split; reflexivity.
  - apply some_inj in E. subst t'. split; reflexivity.
Qed.

(** Where the steps of a scan lead. *)
Lemma scan_next : forall t t', in_scan (t_kpc t) = true -> k_step t = Some t' -> (in_scan (t_kpc t') = true \/ t_kpc t' = KIdle) /\ t_kpc t' <> KDict.
Proof.
  intros t t' HS E. unfold k_step in E. destruct (t_kpc t) eqn:EP; try discriminate E; try discriminate HS.
  - apply some_inj in E. subst t'. unfold k_dict. destruct (_ <? _); [destruct (encodeNewDictionaryEntries _ _ _) as ((e & n) & d)|]; rt_cbn; split; auto; discriminate.
  - destruct (t_kfull t); [apply some_inj in E; subst t'; rt_cbn; split; auto; discriminate|]. destruct (t_bufs t); [apply some_inj in E; subst t'; rt_cbn; split; auto; discriminate|].
    destruct (on_ring _ _ _) as [t1|] eqn:E1; [|discriminate]. apply some_inj in E. subst t'. rt_cbn. split; auto; discriminate.
  - destruct (nth_error _ _) as [b|]; [|discriminate]. destruct (c_pc _); try discriminate E.
    1,2: (apply on_ring_out in E; destruct E as (b1 & r & _ & _ & ->); rt_cbn; rewrite EP; split; auto; discriminate).
    destruct (0 <? n); [apply some_inj in E; subst t'; rt_cbn; split; auto; discriminate|]. destruct (on_ring _ _ _) as [t1|] eqn:E1; [|discriminate].
    apply some_inj in E. subst t'. rt_cbn. destruct (s_dead _); split; auto; discriminate.
  - destruct (nth_error _ _) as [b|]; [|discriminate]. destruct (c_pc _); try discriminate E. destruct (n =? 0); [apply some_inj in E; subst t'; rt_cbn; split; auto; discriminate|].
    unfold k_encode in E. destruct (encodeLogMsgs _ _ _ _ _ _ _) as ((e & read) & cnt). destruct (read =? 0); [apply some_inj in E; subst t'; rt_cbn; split; auto; discriminate|].
    destruct (ring_run _ _ _); [|discriminate]. apply some_inj in E. subst t'. rt_cbn. rewrite EP. split; auto; discriminate.
  - destruct (nth_error _ _) as [b|]; [|discriminate]. destruct (c_pc _); try discriminate E.
    destruct (on_ring _ _ _) as [t1|] eqn:E1; [|discriminate].
    destruct (nth_error _ _) as [b'|]; [|discriminate]. destruct (c_pc _); apply some_inj in E; subst t'; try (rt_cbn; split; auto; discriminate).
    unfold k_delete. destruct (remove_at _ _); rt_cbn; split; auto; discriminate.
  - apply some_inj in E. subst t'. unfold k_next. rt_cbn. destruct (_ =? _); split; auto; discriminate.
Qed.

(** A round either gets something done or finds nothing to do. *)
Lemma round : forall t, good t -> t_kpc t = KTop -> t_kexit t = false \/ t_outst t = true -> t_flight t = [] -> encoded t = 0 -> room t ->
  exists t', goes t t' /\ t_kpc t' = KIdle /\ t_flight t' = [] /\ work t' <= work t /\
    (work t' < work t \/ (encoded t' = 0 /\ t_nextp t' = zlen (t_sites t') /\ Forall quiet (t_bufs t') /\ t_sync t' = t_sync t /\ t_waiters t' = t_waiters t)).
Proof.
  intros t HG EP EX HF HE HO.
  assert (S1 : k_step t = Some (set_kpc KDict t)).
  { unfold k_step. rewrite EP. destruct EX as [EX | EX]; rewrite EX; [reflexivity|]. now rewrite orb_true_r. }
  pose proof (goes_thread _ _ HG S1) as G1. pose proof G1 as (_ & HG1 & _). set (t1 := set_kpc KDict t) in *.
  assert (K1 : t_kpc t1 = KDict) by reflexivity. assert (S2 : k_step t1 = Some (k_dict t1)) by (unfold k_step; now rewrite K1).
  pose proof (goes_thread _ _ HG1 S2) as G2. pose proof G2 as (_ & HG2 & KP2). pose proof HG1 as (A1 & B1 & C1). pose proof HG as (A0 & B0 & C0).
  assert (KF : t_kfull t = false) by (destruct C0 as (C0 & _); destruct (t_kfull t); auto; specialize (C0 eq_refl); lia).
  assert (T1 : t_flight t1 = [] /\ encoded t1 = 0 /\ work t1 = work t /\ t_osize t1 = t_osize t) by (unfold t1, encoded in *; rt_cbn; splits; auto). destruct T1 as (T1 & T2 & T3 & T4).
  assert (D : work (k_dict t1) <= work t).
  { rewrite <- T3. pose proof (dict_position _ _ A1) as DP. assert (X : t_bufs (k_dict t1) = t_bufs t1 /\ t_sites (k_dict t1) = t_sites t1).
    { unfold k_dict. destruct (_ <? _); [destruct (encodeNewDictionaryEntries _ _ _) as ((e & n) & d)|]; split; reflexivity. }
    destruct X as (X1 & X2). unfold work. rewrite X1, X2. lia. }
  assert (X : t_flight (k_dict t1) = [] /\ t_kpc (k_dict t1) = KScan).
  { unfold k_dict. destruct (_ <? _); [destruct (encodeNewDictionaryEntries _ _ _) as ((e & n) & d)|]; rt_cbn; split; auto. }
  destruct X as (F2 & K2).
  assert (I2 : idling (work t) (k_dict t1)).
  { destruct (Z_lt_dec (t_nextp t1) (zlen (t_sites t1))) as [L | L].
    - left. assert (DD := dict_done _ A1 (room_kept _ _ (proj2 (proj2 G1)) HO) T2 L). rewrite <- T3. assert (X : t_bufs (k_dict t1) = t_bufs t1 /\ t_sites (k_dict t1) = t_sites t1).
      { unfold k_dict. destruct (_ <? _); [destruct (encodeNewDictionaryEntries _ _ _) as ((e & n) & d)|]; split; reflexivity. }
      destruct X as (X1 & X2). unfold work. rewrite X1, X2. lia.
    - right. split; [exact D|]. unfold k_dict. replace (t_nextp t1 <? zlen (t_sites t1)) with false by lia. unfold encoded in *. rt_cbn. splits; auto.
      + inv_split A1. destruct HKn as (_ & _ & _ & K & _). lia.
      + intros p b _ Hc. cbn [covered] in Hc. rewrite Z.leb_refl in Hc. lia.
      + intros b _. exact I. }
  pose proof (scan_same t1 _ ltac:(rewrite K1; reflexivity) S2) as (Y1 & Y2).
  destruct (descend (fun k => match k with KTop | KIdle => true | _ => false end)
    (fun s => idling (work t) s /\ room s /\ (in_scan (t_kpc s) = true \/ t_kpc s = KIdle) /\ t_kpc s <> KDict /\ t_sync s = t_sync t /\ t_waiters s = t_waiters t))
    with (W := S (Z.to_nat (work (k_dict t1)))) (R := Z.to_nat (rank (k_dict t1))) (t := k_dict t1) as (t' & G3 & P1 & P2 & P3 & P4); auto.
  - intros s s' Z1 Z2 Z3 Z4 (Z5 & Z6 & Z7 & Z8 & Z9 & Z10) Z11 Z12. destruct Z7 as [Z7 | Z7]; [|rewrite Z7 in Z11; discriminate].
    destruct (scan_next _ _ Z7 Z12) as (N1 & N2). destruct (scan_same _ _ Z7 Z12) as (N3 & N4). splits; auto; try congruence.
    + eapply idle_step; eauto.
    + destruct (goes_thread _ _ Z1 Z12) as (_ & _ & KK). eapply room_kept; eauto.
  - congruence.
  - rewrite K2. splits; auto; try congruence. eapply room_kept; [exact KP2|]. eapply room_kept; [exact (proj2 (proj2 G1))|exact HO].
  - pose proof (good_work _ HG2). lia.
  - destruct P2 as (Q1 & Q2 & Q3 & Q4 & Q5 & Q6). assert (K3 : t_kpc t' = KIdle) by (destruct Q3 as [Q3 | Q3]; [destruct (t_kpc t'); try discriminate|exact Q3]).
    exists t'. split; [eapply goes_trans; [exact G1|]; eapply goes_trans; eauto|]. splits; auto; [apply P4; congruence|lia|].
    destruct Q1 as [Q1 | (R1 & R2 & R3 & R4 & R5 & _)]; [left; exact Q1|right]. splits; auto. rewrite K3 in R5.
    apply Forall_forall. intros b Hb. apply In_nth_error in Hb. destruct Hb as (p & Hp). exact (R5 p b Hp I).
Qed.

(** ** Calls of sync() return *)

Definition sync_rank (s : status) : Z := match s with SYNC_REQUESTED => 3 | PERFORMING_SECOND_PASS => 2 | WAITING_ON_AIO => 1 | SYNC_COMPLETED => 0 end.

Definition waiting (t : rt) : Z := 4 * zlen (t_waiters t) + sync_rank (t_sync t).

Lemma waiting_nonneg : forall t, 0 <= waiting t.
Proof. intros t. unfold waiting. pose proof (zlen_nonneg _ (t_waiters t)). destruct (t_sync t); cbn [sync_rank]; lia. Qed.

Lemma notify_waiting : forall t, waiting (notify t) <= waiting t /\ (t_waiters t <> [] -> waiting (notify t) < waiting t).
Proof.
  intros t. unfold waiting, notify. destruct (t_waiters t) as [|w ws] eqn:EW; [rewrite EW; split; [lia|congruence]|].
  destruct (w_switch w); rt_cbn; rewrite zlen_cons; split; intros; lia.
Qed.

(** The part of the loop after the scan, with nothing encoded and no write in flight. *)
Lemma io_round : forall t, good t -> t_kpc t = KIo -> t_flight t = [] -> encoded t = 0 ->
  exists t', goes t t' /\ t_kpc t' = KTop /\ t_flight t' = [] /\ encoded t' = 0 /\ work t' = work t /\ t_outst t' = false /\ waiting t' <= waiting t /\ (t_sync t = WAITING_ON_AIO -> waiting t' < waiting t).
Proof.
  intros t HG EP HF HE. destruct (steps t HG HF) as (t1 & E1); [congruence|]. pose proof (goes_thread _ _ HG E1) as G1. pose proof G1 as (_ & HG1 & _).
  assert (X : t_kpc t1 = KWrite /\ t_flight t1 = [] /\ encoded t1 = 0 /\ work t1 = work t /\ t_outst t1 = false /\ waiting t1 <= waiting t /\ (t_sync t = WAITING_ON_AIO -> waiting t1 < waiting t)).
  { unfold k_step in E1. rewrite EP in E1. unfold k_io in E1. rewrite HF in E1. destruct HG as (_ & _ & _ & HL & _). destruct (t_outst t) eqn:EO; apply some_inj in E1; subst t1.
    - unfold k_finish_io. destruct (t_sync t) eqn:ES.
      1,2,4: (unfold encoded, waiting in *; rt_cbn; rewrite ES; splits; auto; try lia; discriminate).
      rewrite notify_work. set (t2 := set_sync _ _). assert (N : t_kpc (notify t2) = t_kpc t2 /\ t_flight (notify t2) = t_flight t2 /\ t_en (notify t2) = t_en t2 /\ t_outst (notify t2) = t_outst t2).
      { unfold notify. destruct (t_waiters t2) as [|w ws]; [auto|destruct (w_switch w); auto]. }
      destruct N as (N1 & N2 & N3 & N6). unfold encoded. rewrite N1, N2, N3, N6. pose proof (notify_waiting t2) as (N4 & _).
      assert (N5 : waiting t2 < waiting t) by (unfold waiting, t2; rt_cbn; rewrite ES; cbn [sync_rank]; lia).
      unfold t2, encoded in *. rt_cbn. splits; auto; lia.
    - unfold encoded, waiting in *. rt_cbn. splits; auto; try lia; try (intros ES; specialize (HL ES); discriminate). }
  destruct X as (X1 & X2 & X3 & X4 & X7 & X5 & X6).
  assert (E2 : k_step t1 = Some (set_kpc KTop t1)). { unfold k_step. rewrite X1. unfold k_write. rewrite X3. reflexivity. }
  pose proof (goes_thread _ _ HG1 E2) as G2. exists (set_kpc KTop t1). split; [eapply goes_trans; eauto|]. unfold encoded, waiting in *. rt_cbn. splits; auto.
Qed.

Lemma settle : forall t, good t -> t_kpc t = KIdle -> t_flight t = [] -> encoded t = 0 -> (t_sync t = SYNC_COMPLETED -> t_waiters t <> []) ->
  exists t', goes t t' /\ t_kpc t' = KTop /\ t_flight t' = [] /\ encoded t' = 0 /\ work t' = work t /\ waiting t' < waiting t.
Proof.
  intros t HG EP HF HE HW. assert (E1 : k_step t = Some (k_idle t)) by (unfold k_step; now rewrite EP).
  pose proof (goes_thread _ _ HG E1) as G1. pose proof G1 as (_ & HG1 & _).
  assert (N : forall s, t_kpc (notify s) = t_kpc s /\ t_flight (notify s) = t_flight s /\ t_en (notify s) = t_en s).
  { intros s. unfold notify. destruct (t_waiters s) as [|w ws]; [auto|destruct (w_switch w); auto]. }
  assert (IO : t_kpc (k_idle t) = KIo -> t_flight (k_idle t) = [] -> encoded (k_idle t) = 0 -> work (k_idle t) = work t -> waiting (k_idle t) < waiting t ->
    exists t', goes t t' /\ t_kpc t' = KTop /\ t_flight t' = [] /\ encoded t' = 0 /\ work t' = work t /\ waiting t' < waiting t).
  { intros X1 X2 X3 X4 X5. destruct (io_round _ HG1 X1 X2 X3) as (t' & Y1 & Y2 & Y3 & Y4 & Y5 & _ & Y6 & _). exists t'. split; [eapply goes_trans; eauto|]. splits; auto; lia. }
  unfold k_idle in *. rewrite HE, Z.eqb_refl in *. destruct (t_sync t) eqn:ES.
  - eexists. split; [exact G1|]. unfold encoded, waiting in *. rt_cbn. rewrite ES. splits; auto. cbn [sync_rank]. lia.
  - destruct (t_outst t) eqn:EO.
    + apply IO; unfold encoded, waiting in *; rt_cbn; auto. rewrite ES. cbn [sync_rank]. lia.
    + set (t2 := set_sync _ _) in *. destruct (N t2) as (N1 & N2 & N3). pose proof (notify_waiting t2) as (N4 & _).
      assert (N5 : waiting t2 < waiting t) by (unfold waiting, t2; rt_cbn; rewrite ES; cbn [sync_rank]; lia).
      apply IO; unfold encoded; rewrite ?N1, ?N2, ?N3, ?notify_work; unfold t2 in *; rt_cbn; auto. lia.
  - destruct (io_round _ HG1) as (t' & Y1 & Y2 & Y3 & Y4 & Y5 & _ & Y6 & Y7); rt_cbn; auto. exists t'. split; [eapply goes_trans; eauto|]. splits; auto.
  - set (t2 := set_kpc KIo t) in *. destruct (N t2) as (N1 & N2 & N3). destruct (notify_waiting t2) as (_ & N4). assert (N5 : waiting t2 = waiting t) by reflexivity.
    apply IO; unfold encoded; rewrite ?N1, ?N2, ?N3, ?notify_work; unfold t2 in *; rt_cbn; auto.
Qed.

(** ** Nothing left to do *)

Definition done (t : rt) : Prop :=
  t_kpc t = KIdle /\ t_flight t = [] /\ encoded t = 0 /\ t_nextp t = zlen (t_sites t) /\ Forall quiet (t_bufs t) /\ t_sync t = SYNC_COMPLETED /\ t_waiters t = [].

Lemma drain : forall W M t, good t -> t_kpc t = KTop -> t_kexit t = false -> t_flight t = [] -> encoded t = 0 -> room t ->
  work t < Z.of_nat W -> (Z.to_nat (waiting t) <= M)%nat -> exists t', goes t t' /\ done t'.
Proof.
  induction W as [|W IHW]; [intros M t HG; pose proof (good_work t HG); lia|].
  induction M as [M IHM] using lt_wf_ind; intros t HG EP EX HF HE HO HW HM.
  destruct (round t HG EP (or_introl EX) HF HE HO) as (t1 & G1 & K1 & F1 & W1 & R1). pose proof G1 as (_ & HG1 & KP1). pose proof KP1 as (_ & X1 & _). pose proof (room_kept _ _ KP1 HO) as X2.
  destruct R1 as [R1 | (R1 & R2 & R3 & R4 & R5)].
  - destruct (to_top t1 HG1) as (t2 & G2 & K2 & F2 & E2 & W2); [congruence..|]. pose proof G2 as (_ & HG2 & KP2). pose proof (room_kept _ _ KP2 X2) as Y2. destruct KP2 as (_ & Y1 & _).
    destruct (IHW (Z.to_nat (waiting t2)) t2) as (t' & G3 & D); auto; try congruence; try lia.
    exists t'. split; [eapply goes_trans; [exact G1|eapply goes_trans; eauto]|exact D].
  - assert (DEC : (t_sync t1 = SYNC_COMPLETED /\ t_waiters t1 = []) \/ (t_sync t1 = SYNC_COMPLETED -> t_waiters t1 <> [])).
    { destruct (t_sync t1); try (right; discriminate). destruct (t_waiters t1); [left; auto|right; discriminate]. }
    destruct DEC as [(D1 & D2) | D1].
    + exists t1. split; [exact G1|]. unfold done. splits; auto.
    + destruct (settle t1 HG1 K1 F1 R1 D1) as (t2 & G2 & K2 & F2 & E2 & W2 & M2). pose proof G2 as (_ & HG2 & KP2). pose proof (room_kept _ _ KP2 X2) as Y2. destruct KP2 as (_ & Y1 & _).
      assert (WT : waiting t1 = waiting t) by (unfold waiting; now rewrite R4, R5). pose proof (waiting_nonneg t2).
      destruct (IHM (Z.to_nat (waiting t2)) ltac:(lia) t2) as (t' & G3 & D); auto; try congruence; try lia.
      exists t'. split; [eapply goes_trans; [exact G1|eapply goes_trans; eauto]|exact D].
Qed.

Lemma drains : forall t, good t -> t_kpc t <> KExit -> t_kexit t = false -> room t -> exists t', goes t t' /\ done t'.
Proof.
  intros t HG HX EX HO.
  assert (Z0 : exists t0, goes t t0 /\ t_kpc t0 <> KExit /\ t_kpc t0 <> KTop).
  { destruct (t_kpc t) eqn:EP; try (exists t; split; [now apply goes_refl|]; rewrite EP; split; congruence).
    assert (S1 : k_step t = Some (set_kpc KDict t)) by (unfold k_step; rewrite EP, EX; reflexivity).
    exists (set_kpc KDict t). split; [now apply goes_thread|]. rt_cbn. split; discriminate. }
  destruct Z0 as (t0 & G0 & X0 & T0). pose proof G0 as (_ & HG0 & KP0). pose proof (room_kept _ _ KP0 HO) as Y2. destruct KP0 as (_ & Y1 & _).
  destruct (to_top t0 HG0 X0) as (t1 & G1 & K1 & F1 & E1 & _); [congruence|]. pose proof G1 as (_ & HG1 & KP1). pose proof (room_kept _ _ KP1 Y2) as Y4. destruct KP1 as (_ & Y3 & _).
  pose proof (good_work _ HG1) as N1.
  destruct (drain (S (Z.to_nat (work t1))) (Z.to_nat (waiting t1)) t1) as (t' & G2 & D); auto; try congruence; try lia.
  exists t'. split; [eapply goes_trans; [exact G0|eapply goes_trans; eauto]|exact D].
Qed.

(** ** Told to stop, the thread stops *)

Definition stopped (t : rt) : Prop := t_kpc t = KExit /\ t_flight t = [] /\ encoded t = 0.

Lemma leaves : forall t, good t -> t_kpc t = KTop -> t_kexit t = true -> t_flight t = [] -> encoded t = 0 -> t_outst t = false ->
  exists t', goes t t' /\ stopped t'.
Proof.
  intros t HG EP EX HF HE EO. assert (S1 : k_step t = Some (set_kpc KExit t)). { unfold k_step. rewrite EP, EX, HE, EO. reflexivity. }
  exists (set_kpc KExit t). split; [now apply goes_thread|]. unfold stopped, encoded in *. rt_cbn. auto.
Qed.

Lemma wind : forall W M t, good t -> t_kpc t = KTop -> t_kexit t = true -> t_flight t = [] -> encoded t = 0 -> room t ->
  work t < Z.of_nat W -> (Z.to_nat (waiting t) <= M)%nat -> exists t', goes t t' /\ stopped t'.
Proof.
  induction W as [|W IHW]; [intros M t HG; pose proof (good_work t HG); lia|].
  induction M as [M IHM] using lt_wf_ind; intros t HG EP EX HF HE HO HW HM.
  destruct (t_outst t) eqn:EO; [|now apply leaves].
  destruct (round t HG EP (or_intror EO) HF HE HO) as (t1 & G1 & K1 & F1 & W1 & R1). pose proof G1 as (_ & HG1 & KP1). pose proof KP1 as (_ & X1 & _). pose proof (room_kept _ _ KP1 HO) as X2.
  destruct R1 as [R1 | (R1 & R2 & R3 & R4 & R5)].
  - destruct (to_top t1 HG1) as (t2 & G2 & K2 & F2 & E2 & W2); [congruence..|]. pose proof G2 as (_ & HG2 & KP2). pose proof (room_kept _ _ KP2 X2) as Y2. destruct KP2 as (_ & Y1 & _).
    destruct (IHW (Z.to_nat (waiting t2)) t2) as (t' & G3 & D); auto; try congruence; try lia.
    exists t'. split; [eapply goes_trans; [exact G1|eapply goes_trans; eauto]|exact D].
  - assert (DEC : (t_sync t1 = SYNC_COMPLETED /\ t_waiters t1 = []) \/ (t_sync t1 = SYNC_COMPLETED -> t_waiters t1 <> [])).
    { destruct (t_sync t1); try (right; discriminate). destruct (t_waiters t1); [left; auto|right; discriminate]. }
    destruct DEC as [(D1 & D2) | D1].
    + assert (E1 : k_step t1 = Some (set_kpc KIo t1)).
      { unfold k_step. rewrite K1. unfold k_idle. rewrite R1, D1. unfold notify. rt_cbn. now rewrite D2. }
      pose proof (goes_thread _ _ HG1 E1) as G2. pose proof G2 as (_ & HG2 & KP2). destruct KP2 as (_ & Y1 & _).
      destruct (io_round _ HG2) as (t3 & G3 & Z1 & Z2 & Z3 & Z4 & Z5 & _); unfold encoded in *; rt_cbn; auto. pose proof G3 as (_ & HG3 & KP3). destruct KP3 as (_ & Y3 & _).
      destruct (leaves t3) as (t' & G4 & D); auto; try congruence.
      exists t'. split; [eapply goes_trans; [exact G1|eapply goes_trans; [exact G2|eapply goes_trans; eauto]]|exact D].
    + destruct (settle t1 HG1 K1 F1 R1 D1) as (t2 & G2 & K2 & F2 & E2 & W2 & M2). pose proof G2 as (_ & HG2 & KP2). pose proof (room_kept _ _ KP2 X2) as Y2. destruct KP2 as (_ & Y1 & _).
      assert (WT : waiting t1 = waiting t) by (unfold waiting; now rewrite R4, R5). pose proof (waiting_nonneg t2).
      destruct (IHM (Z.to_nat (waiting t2)) ltac:(lia) t2) as (t' & G3 & D); auto; try congruence; try lia.
      exists t'. split; [eapply goes_trans; [exact G1|eapply goes_trans; eauto]|exact D].
Qed.

Lemma stops : forall t, good t -> t_kpc t <> KExit -> t_kexit t = true -> room t -> exists t', goes t t' /\ stopped t'.
Proof.
  intros t HG HX EX HO.
  assert (Z0 : (exists t', goes t t' /\ stopped t') \/ exists t0, goes t t0 /\ t_kpc t0 <> KExit /\ t_kpc t0 <> KTop).
  { destruct (t_kpc t) eqn:EP; try (right; exists t; split; [now apply goes_refl|]; rewrite EP; split; congruence).
    assert (S1 : k_step t = Some (set_kpc (if negb (t_kexit t) || (0 <? encoded t) || t_outst t then KDict else KExit) t)) by (unfold k_step; now rewrite EP).
    destruct (negb (t_kexit t) || (0 <? encoded t) || t_outst t) eqn:EC.
    - right. exists (set_kpc KDict t). split; [now apply goes_thread|]. rt_cbn. split; discriminate.
    - left. rewrite EX in EC. cbn [negb orb] in EC. apply orb_false_iff in EC. destruct EC as (EC & EO). apply Z.ltb_ge in EC. exists (set_kpc KExit t). split; [now apply goes_thread|].
      destruct HG as (HI & _). inv_split HI. unfold stopped, encoded in *. rt_cbn.
      destruct HEn as (HEn & _). splits; auto.
      + destruct HFl as [(HFl & _) | (HFl & _)]; [exact HFl|congruence].
      + destruct HEn as (_ & HEn & _). unfold getEncodedBytes in *. lia. }
  destruct Z0 as [Z0 | (t0 & G0 & X0 & T0)]; [exact Z0|]. pose proof G0 as (_ & HG0 & KP0). pose proof (room_kept _ _ KP0 HO) as Y2. destruct KP0 as (_ & Y1 & _).
  destruct (to_top t0 HG0 X0) as (t1 & G1 & K1 & F1 & E1 & _); [congruence|]. pose proof G1 as (_ & HG1 & KP1). pose proof (room_kept _ _ KP1 Y2) as Y4. destruct KP1 as (_ & Y3 & _).
  pose proof (good_work _ HG1) as N1.
  destruct (wind (S (Z.to_nat (work t1))) (Z.to_nat (waiting t1)) t1) as (t' & G2 & D); auto; try congruence; try lia.
  exists t'. split; [eapply goes_trans; [exact G0|eapply goes_trans; eauto]|exact D].
Qed.

(** What was visible has been taken. *)
Lemma quiet_took : forall sites b j, buf_ok small sites b -> quiet b -> visible (b_ring b) j = true -> (j <= b_taken b)%nat.
Proof.
  intros sites b j (_ & _ & A & B & C & _) (Q & _) V. pose proof (vis_sent _ _ V) as VS. unfold visible in V. apply andb_true_iff in V. destruct V as (_ & V). apply Z.leb_le in V.
  assert (NE := staged_nonempty _ _ _ A). unfold all_sent in NE. apply Forall_app in NE. destruct NE as (NE & _).
  apply (concat_mono (r_sent (b_ring b))); auto. rewrite <- B. unfold visible_bytes in V. rewrite Q, Z.ltb_irrefl in V. lia.
Qed.

Lemma done_all : forall t id j, inv small t -> done t -> vis [Waiter [(id, j)] false] (t_bufs t ++ t_gone t) -> (j <= in_file t id)%nat.
Proof.
  intros t id j HI (_ & D1 & D2 & _ & D3 & _) V. set (ws := [Waiter [(id, j)] false]) in *.
  assert (HI' : inv small (set_waiters ws t)) by (unfold inv, everything, sect in *; rt_cbn; exact HI).
  assert (T : Forall (took ws) (t_bufs t)).
  { apply Forall_forall. intros b Hb k W. eapply Forall_forall in D3; eauto. apply In_nth_error in Hb as Hp. destruct Hp as (p & Hp). eapply quiet_took; eauto; [eapply buf_at; eauto|].
    eapply vis_at; [eapply inv_nodup; exact HI|exact V|apply in_or_app; now left|exact W]. }
  assert (AL := took_all small (set_waiters ws t) id j HI' V T). specialize (AL ltac:(exists (Waiter [(id, j)] false); split; now left)).
  unfold everything, sect in AL. rt_cbn_in AL. inv_split HI.
  assert (GL : t_glog t = []). { eapply wires_empty. unfold encoded_bytes in HGl. unfold encoded in D2. rewrite D2 in HGl. exact HGl. }
  destruct HFl as [(_ & F2) | (_ & n & F2 & _)]; [|congruence]. rewrite GL, F2, !app_nil_r in AL. exact AL.
Qed.

End Small.
