(** C70, C71: what getStats reports. *)
From Coq Require Import QArith Permutation.
From Verif Require Import Base BaseProofs FrontFmt Args ArgsProofs DecodeProofs Encoder Wire EncoderProofs Prop_Encoder Decoder FileSpec
  DecoderProofs Prop_Decoder Ring RingProofs Prop_Ring Runtime RtRing RtBuf RtInv RtSafe RtFile Prop_Runtime RtRuns Prop_RuntimeRuns Counters.
Local Open Scope Z_scope.

Ltac Zify.zify_post_hook ::= Z.div_mod_to_equations.

(** ** Specification *)

Definition total (l : list Z) : Z := fold_right Z.add 0 l.

(** States with their counters and the buffers given to aio_write so far, for all files. *)
Inductive counted (ok : rlabel -> rt -> Prop) : list (list Z) -> rt -> counts -> Prop :=
| counted_init : forall m size b1 b2 r u c t, 0 <= size < 2 ^ 30 -> mem_bytes m -> times_ok r u c ->
    b1 + size <= b2 \/ b2 + size <= b1 -> rt_init m size b1 b2 r u c = Some t -> counted ok [] t no_counts
| counted_step : forall l bs t c t', counted ok bs t c -> ok l t -> rt_step l t = Some t' ->
    counted ok (bs ++ skipn (length (t_subm t)) (t_subm t')) t' (count l t c).

(** Bytes taken from staging buffers, of all threads. *)
Definition taken_bytes (t : rt) : Z := total (map (fun b => zlen (r_got (b_ring b))) (t_bufs t ++ t_gone t)).
(** Bytes threads have logged. *)
Definition logged_bytes (t : rt) : Z := total (map (fun b => zlen (concat (r_sent (b_ring b)))) (t_bufs t ++ t_gone t)).
Definition logged_messages (t : rt) : Z := total (map (fun b => zlen (b_msgs b)) (t_bufs t ++ t_gone t)).

(** Writes not completed. *)
Definition in_flight (t : rt) : list (list Z) := map (fun w => load (e_mem (t_en t)) (fst w) (Z.to_nat (snd w))) (t_flight t).

(** ** Sums *)

Lemma total_app : forall a b, total (a ++ b) = total a + total b.
Proof. unfold total. induction a; intros b; cbn [app fold_right]; [lia|]. rewrite IHa. lia. Qed.

Lemma total_update : forall A (f : A -> Z) j x y l, nth_error l j = Some y ->
  total (map f (update j x l)) = total (map f l) + f x - f y.
Proof.
  intros A f. induction j as [|j IH]; intros x y [|z l] H; try discriminate; cbn [nth_error update map] in *.
  - apply some_inj in H. subst. unfold total. cbn [fold_right]. lia.
  - specialize (IH x y l H). unfold total in *. cbn [fold_right]. lia.
Qed.

Lemma total_perm : forall a b, Permutation a b -> total a = total b.
Proof. intros a b P. unfold total. induction P; cbn [fold_right]; lia. Qed.

Lemma total_ext : forall A (f g : A -> Z) l, (forall x, In x l -> f x = g x) -> total (map f l) = total (map g l).
Proof. intros A f g l H. f_equal. now apply map_ext_in. Qed.

(** ** What a step does to the sums *)

Definition taken_messages (t : rt) : Z := total (map (fun b => Z.of_nat (b_taken b)) (t_bufs t ++ t_gone t)).

Lemma same_sums : forall t t', t_bufs t' = t_bufs t -> t_gone t' = t_gone t ->
  taken_bytes t' = taken_bytes t /\ taken_messages t' = taken_messages t.
Proof. intros t t' A B. unfold taken_bytes, taken_messages. now rewrite A, B. Qed.

Lemma notify_sums : forall t, taken_bytes (notify t) = taken_bytes t /\ taken_messages (notify t) = taken_messages t.
Proof. intros t. destruct (notify_fields t) as (A & B & _). now apply same_sums. Qed.

Lemma on_ring_sums : forall j l t t', on_ring j l t = Some t' ->
  (forall b, nth_error (t_bufs t) j = Some b -> reads l (b_ring b) = false) ->
  taken_bytes t' = taken_bytes t /\ taken_messages t' = taken_messages t.
Proof.
  intros j l t t' E HR. unfold on_ring in E. destruct (nth_error (t_bufs t) j) as [b|] eqn:EB; [|discriminate].
  destruct (ring_step _ l (b_ring b)) as [r|] eqn:ER; [|discriminate]. apply some_inj in E. subst t'.
  destruct (step_sent _ _ _ _ ER) as (x & _ & G). specialize (G (HR b eq_refl)).
  unfold taken_bytes, taken_messages. rt_cbn. rewrite !map_app, !total_app, !(total_update _ _ _ _ _ _ EB). cbn [b_ring b_taken]. rewrite G. lia.
Qed.

Lemma encode_sums : forall small t b n t' c, inv small t -> t_kpc t = KEnc -> nth_error (t_bufs t) (Z.to_nat (t_ki t)) = Some b ->
  c_pc (r_c (b_ring b)) = CHave n -> 0 < n -> k_encode t b n = Some t' ->
  exists read cnt, taken_bytes t' = taken_bytes t + read /\ taken_messages t' = taken_messages t + cnt /\
    note_chunk t c = Counts (to_u 64 (n_read c + read)) (n_written c) (n_pad c) (to_u 64 (n_logs c + cnt)) (n_writes c).
Proof.
  intros small t b n t' c H HPC HB HC Hn E. unfold k_encode in E. unfold note_chunk. rewrite HB, HC. replace (n =? 0) with false by lia.
  destruct (encodeLogMsgs (t_en t) (s_data (r_mem (b_ring b))) (c_pos (r_c (b_ring b))) (Z.min RELEASE n) (b_id b) (t_kwrap t) (t_shadow t))
    as [[e read] cnt] eqn:EE. exists read, cnt. pose proof H as H'. inv_split H'.
  pose proof HKn as (K1 & K2 & K3 & K4 & K5). rewrite K5 in EE.
  assert (HO : buf_ok small (t_sites t) b).
  { destruct HBu as (A & _). eapply Forall_forall in A; [exact A|]. eapply nth_error_In; eauto. }
  assert (HI0 : 0 <= b_id b < 2 ^ 32).
  { destruct HId as (_ & A & B & _). eapply Forall_forall in A; [|apply in_or_app; left; apply in_map; eapply nth_error_In; eauto].
    cbv beta in A. lia. }
  destruct (buf_encode small (t_sites t) (Z.to_nat (t_nextp t)) b n (t_en t) (t_kwrap t) e read cnt HO HC Hn (proj1 HEn) HI0 EE)
    as (R1 & R2 & R3 & R4 & _).
  split; [|split; [|reflexivity]].
  all: destruct (Z.eqb_spec read 0) as [Er | Er];
    [specialize (R2 Er); apply some_inj in E; subst t'; unfold taken_bytes, taken_messages; rt_cbn; lia|].
  all: destruct (ring_run _ _ (b_ring b)) as [r'|] eqn:ER; [|discriminate]; apply some_inj in E; subst t';
    unfold taken_bytes, taken_messages; rt_cbn; rewrite !map_app, !total_app, !(total_update _ _ _ _ _ _ HB); cbn [b_ring b_taken]; try lia.
  destruct (b_ring b) as [m cons p [cp cc csb] sent got] eqn:EB. cbn [r_c c_pc r_got] in *. subst cp.
  rewrite (take_run SBS m cons p n (Z.to_nat read) cc csb sent got) in ER by lia. apply some_inj in ER. subst r'. cbn [r_got].
  rewrite zlen_app, load_zlen. lia.
Qed.

Lemma wrap_add : forall bits a b, to_u bits (to_u bits a + b) = to_u bits (a + b).
Proof. intros. unfold to_u. apply Zplus_mod_idemp_l. Qed.

Definition reads_ok (t : rt) (c : counts) : Prop :=
  n_read c = to_u 64 (taken_bytes t) /\ n_logs c = to_u 64 (taken_messages t).

Lemma reads_same : forall t t' c c', reads_ok t c -> n_read c' = n_read c -> n_logs c' = n_logs c ->
  taken_bytes t' = taken_bytes t /\ taken_messages t' = taken_messages t -> reads_ok t' c'.
Proof. intros t t' c c' (A & B) C D (E & F). unfold reads_ok. now rewrite C, D, E, F. Qed.

Lemma thread_reads : forall small t t' c, inv small t -> k_step t = Some t' -> reads_ok t c -> reads_ok t' (count RThread t c).
Proof.
  intros small t t' c H E R. unfold k_step in E. cbv zeta in E. cbn [count]. destruct (t_kpc t) eqn:EP.
  - apply some_inj in E. subst t'. apply (reads_same t _ c _ R eq_refl eq_refl). now apply same_sums.
  - apply some_inj in E. subst t'. apply (reads_same t _ c _ R eq_refl eq_refl). apply same_sums; unfold k_dict;
      (destruct (t_nextp t <? zlen (t_sites t)); [|reflexivity]; destruct (encodeNewDictionaryEntries _ _ _) as [[e n] ret]; reflexivity).
  - apply (reads_same t _ c _ R eq_refl eq_refl). destruct (t_kfull t); [apply some_inj in E; subst; now apply same_sums|].
    destruct (t_bufs t) eqn:EB; [apply some_inj in E; subst; now apply same_sums|].
    destruct (on_ring (Z.to_nat (t_ki t)) LPeek t) as [t1|] eqn:ER; [|discriminate]. apply some_inj in E. subst t'.
    destruct (on_ring_sums _ _ _ _ ER) as (A & B); [reflexivity|]. rewrite <- A, <- B. now apply same_sums.
  - apply (reads_same t _ c _ R eq_refl eq_refl). destruct (nth_error (t_bufs t) (Z.to_nat (t_ki t))) as [b|] eqn:EB; [|discriminate].
    destruct (c_pc (r_c (b_ring b))) eqn:EC; try discriminate; try (apply (on_ring_sums _ _ _ _ E);
      intros b0 Hb0; rewrite EB in Hb0; apply some_inj in Hb0; subst b0; unfold reads; now rewrite EC).
    destruct (0 <? n); [apply some_inj in E; subst; now apply same_sums|].
    destruct (on_ring _ _ _) as [t1|] eqn:ER; [|discriminate]. apply some_inj in E. subst t'.
    destruct (on_ring_sums _ _ _ _ ER) as (A & B); [reflexivity|]. rewrite <- (proj1 (same_sums t (set_gseen (t_gseen t ++ [b_id b]) t) eq_refl eq_refl)), <- (proj2 (same_sums t (set_gseen (t_gseen t ++ [b_id b]) t) eq_refl eq_refl)), <- A, <- B. now apply same_sums.
  - destruct (nth_error (t_bufs t) (Z.to_nat (t_ki t))) as [b|] eqn:EB; [|discriminate].
    destruct (c_pc (r_c (b_ring b))) eqn:EC; try discriminate. destruct (n =? 0) eqn:EN.
    + apply some_inj in E. subst t'. unfold note_chunk. rewrite EB, EC, EN. apply (reads_same t _ c _ R eq_refl eq_refl). now apply same_sums.
    + assert (HN : 0 < n).
      { inv_split H. destruct HBu as (A & _). eapply Forall_forall in A; [|eapply nth_error_In; exact EB].
        destruct (handed_messages _ _ _ _ A EC) as (j & _ & X). cbv zeta in X. destruct X as (_ & X & _).
        pose proof (zlen_nonneg _ (concat (firstn (j - b_taken b) (skipn (b_taken b) (r_sent (b_ring b)))))). lia. }
      destruct (encode_sums small t b n t' c H EP EB EC HN E) as (read & cnt & A & B & ->). destruct R as (R1 & R2).
      unfold reads_ok. cbn [n_read n_logs]. rewrite A, B, R1, R2, !wrap_add. auto.
  - apply (reads_same t _ c _ R eq_refl eq_refl). destruct (nth_error (t_bufs t) (Z.to_nat (t_ki t))) as [b|] eqn:EB; [|discriminate].
    destruct (c_pc (r_c (b_ring b))) eqn:EC; try discriminate.
    destruct (on_ring _ _ _) as [t1|] eqn:ER; [|discriminate].
    assert (EI : t_ki t1 = t_ki t).
    { unfold on_ring in ER. rewrite EB in ER. destruct (ring_step _ _ _); [|discriminate]. apply some_inj in ER. now subst. }
    destruct (on_ring_sums _ _ _ _ ER) as (A & B).
    { intros b0 Hb0. rewrite EB in Hb0. apply some_inj in Hb0. subst b0. unfold reads. now rewrite EC. }
    rewrite <- A, <- B. clear A B ER.
    destruct (nth_error (t_bufs t1) (Z.to_nat (t_ki t))) as [b'|] eqn:EB'; [|discriminate].
    destruct (c_pc (r_c (b_ring b'))) eqn:EC'; apply some_inj in E; subst t'; try now apply same_sums.
    rewrite <- EI in EB'. assert (HP := remove_perm _ _ _ _ EB').
    assert (X : Permutation (t_bufs (k_delete t1 b') ++ t_gone (k_delete t1 b')) (t_bufs t1 ++ t_gone t1)).
    { eapply perm_trans; [|apply Permutation_app_tail; apply Permutation_sym; exact HP].
      unfold k_delete. cbv zeta. destruct (remove_at (Z.to_nat (t_ki t1)) (t_bufs t1)); rt_cbn.
      - cbn [app]. apply Permutation_sym, Permutation_cons_append.
      - rewrite app_assoc. apply Permutation_sym. cbn [app]. apply (Permutation_cons_append (b0 :: l ++ t_gone t1) b'). }
    unfold taken_bytes, taken_messages. split; apply total_perm, Permutation_map; exact X.
  - apply (reads_same t _ c _ R eq_refl eq_refl). apply some_inj in E. subst t'. now apply same_sums.
  - apply (reads_same t _ c _ R eq_refl eq_refl). apply some_inj in E. subst t'. unfold k_idle.
    destruct (encoded t =? 0); [|now apply same_sums]. destruct (t_sync t); try (now apply same_sums).
    + destruct (t_outst t); [now apply same_sums|]. destruct (notify_sums (set_sync SYNC_COMPLETED (set_kpc KIo t))) as (A & B). rewrite A, B. now apply same_sums.
    + destruct (notify_sums (set_kpc KIo t)) as (A & B). rewrite A, B. now apply same_sums.
  - assert (S : taken_bytes t' = taken_bytes t /\ taken_messages t' = taken_messages t).
    { unfold k_io in E. destruct (t_outst t); [|apply some_inj in E; subst; now apply same_sums].
      destruct (t_flight t).
      - apply some_inj in E. subst t'. unfold k_finish_io. destruct (t_sync t); try now apply same_sums.
        destruct (notify_sums (set_sync SYNC_COMPLETED (set_outst false (set_kpc KWrite t)))) as (A & B). rewrite A, B. now apply same_sums.
      - destruct (t_kfull t); [discriminate|]. apply some_inj in E. subst. now apply same_sums. }
    destruct (t_flight t); [destruct (t_outst t)|]; exact (reads_same t _ c _ R eq_refl eq_refl S).
  - apply some_inj in E. subst t'. unfold k_write. destruct (encoded t =? 0); [|cbn [swapBuffer]]; (apply (reads_same t _ c _ R eq_refl eq_refl); now apply same_sums).
  - discriminate.
Qed.

Lemma step_reads : forall small l t t' c, inv small t -> legal small l t -> rt_step l t = Some t' -> reads_ok t c -> reads_ok t' (count l t c).
Proof.
  intros small l t t' c H L E R. destruct l; cbn [rt_step] in E; try (eapply thread_reads; eassumption).
  all: try (cbn [count]; eapply reads_same; [exact R|reflexivity|reflexivity|]).
  - apply some_inj in E. subst. now apply same_sums.
  - apply some_inj in E. subst. now apply same_sums.
  - destruct (nth_error (t_pend t) k); [|discriminate]. apply some_inj in E. subst t'.
    unfold taken_bytes, taken_messages. rt_cbn. rewrite !map_app, !total_app. cbn [map b_ring b_taken r_got new_ring total fold_right]. rewrite zlen_nil. lia.
  - destruct (nth_error (t_sites t) _); [|discriminate]. destruct (nth_error (t_bufs t) j) as [b|] eqn:EB; [|discriminate].
    destruct (ring_step _ _ _) as [r|] eqn:ER; [|discriminate]. apply some_inj in E. subst t'. destruct (step_sent _ _ _ _ ER) as (y & _ & G).
    unfold taken_bytes, taken_messages. rt_cbn. rewrite !map_app, !total_app, !(total_update _ _ _ _ _ _ EB). cbn [b_ring b_taken]. rewrite G by reflexivity. lia.
  - apply (on_ring_sums _ _ _ _ E). reflexivity.
  - apply (on_ring_sums _ _ _ _ E). reflexivity.
  - apply (on_ring_sums _ _ _ _ E). reflexivity.
  - apply (on_ring_sums _ _ _ _ E). reflexivity.
  - destruct (nth_error (t_flight t) k) as [[base n]|]; [|discriminate]. apply some_inj in E. subst. now apply same_sums.
  - destruct L.
  - destruct (snap_ok t snap); [|discriminate]. apply some_inj in E. subst. now apply same_sums.
  - destruct (t_waiters t); [discriminate|]. apply some_inj in E. subst. now apply same_sums.
  - destruct (t_waiters t); [discriminate|]. apply some_inj in E. subst. apply notify_sums.
  - destruct (t_sw t); try discriminate. destruct (snap_ok t snap); [|discriminate]. apply some_inj in E. subst. now apply same_sums.
  - destruct (t_sw t); try discriminate. apply some_inj in E. subst. now apply same_sums.
  - destruct (t_sw t); try discriminate. destruct (t_kpc t); try discriminate. destruct (encoder _ _ _ _ _ _ _); [|discriminate].
    apply some_inj in E. subst. now apply same_sums.
  - destruct (t_kpc t); try discriminate. apply some_inj in E. subst. now apply same_sums.
Qed.

(** ** What a step does to the output *)

Definition pending (t : rt) : Z := if t_outst t then 1 else 0.

Definition out_ok (bs : list (list Z)) (t : rt) (c : counts) : Prop :=
  concat bs = concat (t_olds t) ++ concat (t_subm t) /\ n_written c = to_u 64 (zlen (concat bs)) /\ n_pad c = 0 /\
  n_writes c = to_u 32 (zlen bs - pending t).

Definition keeps (t t' : rt) : Prop := t_subm t' = t_subm t /\ t_olds t' = t_olds t /\ t_outst t' = t_outst t.

Lemma out_same : forall bs t t' c c', out_ok bs t c -> keeps t t' -> n_written c' = n_written c -> n_pad c' = n_pad c ->
  n_writes c' = n_writes c -> out_ok (bs ++ skipn (length (t_subm t)) (t_subm t')) t' c'.
Proof.
  intros bs t t' c c' (A & B & C & D) (E & F & G) H I J. rewrite E, skipn_all, app_nil_r. unfold out_ok, pending in *.
  rewrite E, F, G, H, I, J. splits; auto.
Qed.

Lemma on_ring_keeps : forall j l t t', on_ring j l t = Some t' -> keeps t t'.
Proof.
  intros j l t t' E. unfold on_ring in E. destruct (nth_error (t_bufs t) j); [|discriminate].
  destruct (ring_step _ _ _); [|discriminate]. apply some_inj in E. subst t'. unfold keeps. rt_cbn. auto.
Qed.

Lemma notify_keeps : forall t t', keeps t t' -> keeps t (notify t').
Proof. intros t t' K. unfold notify. destruct (t_waiters t') as [|w ws]; [exact K|]. destruct (w_switch w); exact K. Qed.

Ltac kp := solve [unfold keeps; rt_cbn; auto].

Lemma thread_out : forall small bs t t' c, inv small t -> k_step t = Some t' -> out_ok bs t c ->
  out_ok (bs ++ skipn (length (t_subm t)) (t_subm t')) t' (count RThread t c).
Proof.
  intros small bs t t' c H E R. unfold k_step in E. cbv zeta in E. cbn [count]. destruct (t_kpc t) eqn:EP.
  - apply (out_same bs t t' c _ R); auto. apply some_inj in E. subst t'. kp.
  - apply (out_same bs t t' c _ R); auto. apply some_inj in E. subst t'. unfold k_dict.
    destruct (t_nextp t <? zlen (t_sites t)); [destruct (encodeNewDictionaryEntries _ _ _) as [[e n] ret]|]; kp.
  - apply (out_same bs t t' c _ R); auto. destruct (t_kfull t); [apply some_inj in E; subst; kp|].
    destruct (t_bufs t) eqn:EB; [apply some_inj in E; subst; kp|].
    destruct (on_ring (Z.to_nat (t_ki t)) LPeek t) as [t1|] eqn:ER; [|discriminate]. apply some_inj in E. subst t'.
    exact (on_ring_keeps _ _ _ _ ER).
  - apply (out_same bs t t' c _ R); auto. destruct (nth_error (t_bufs t) (Z.to_nat (t_ki t))) as [b|] eqn:EB; [|discriminate].
    destruct (c_pc (r_c (b_ring b))) eqn:EC; try discriminate; try exact (on_ring_keeps _ _ _ _ E).
    destruct (0 <? n); [apply some_inj in E; subst; kp|].
    destruct (on_ring _ _ _) as [t1|] eqn:ER; [|discriminate]. apply some_inj in E. subst t'.
    exact (on_ring_keeps _ _ _ _ ER).
  - destruct (nth_error (t_bufs t) (Z.to_nat (t_ki t))) as [b|] eqn:EB; [|discriminate].
    destruct (c_pc (r_c (b_ring b))) eqn:EC; try discriminate. unfold note_chunk. rewrite EB, EC. destruct (n =? 0) eqn:EN.
    + apply (out_same bs t t' c _ R); auto. apply some_inj in E. subst t'. kp.
    + unfold k_encode in E.
      destruct (encodeLogMsgs (t_en t) (s_data (r_mem (b_ring b))) (c_pos (r_c (b_ring b))) (Z.min RELEASE n) (b_id b) (t_kwrap t) (t_shadow t)) as [[e read] cnt].
      apply (out_same bs t t' c _ R); auto. destruct (read =? 0); [apply some_inj in E; subst; kp|].
      destruct (ring_run _ _ _); [|discriminate]. apply some_inj in E. subst. kp.
  - apply (out_same bs t t' c _ R); auto. destruct (nth_error (t_bufs t) (Z.to_nat (t_ki t))) as [b|] eqn:EB; [|discriminate].
    destruct (c_pc (r_c (b_ring b))) eqn:EC; try discriminate.
    destruct (on_ring _ _ _) as [t1|] eqn:ER; [|discriminate]. apply on_ring_keeps in ER.
    destruct (nth_error (t_bufs t1) (Z.to_nat (t_ki t))) as [b'|] eqn:EB'; [|discriminate].
    destruct (c_pc (r_c (b_ring b'))) eqn:EC'; apply some_inj in E; subst t'; try exact ER.
    unfold k_delete. cbv zeta. destruct (remove_at _ _); exact ER.
  - apply (out_same bs t t' c _ R); auto. apply some_inj in E. subst t'. kp.
  - apply (out_same bs t t' c _ R); auto. apply some_inj in E. subst t'. unfold k_idle.
    destruct (encoded t =? 0); [|kp]. destruct (t_sync t); try kp; [|apply notify_keeps; kp].
    destruct (t_outst t); [kp|apply notify_keeps; kp].
  - unfold k_io in E. destruct (t_outst t) eqn:EO.
    + destruct (t_flight t) eqn:EF.
      * apply some_inj in E. subst t'.
        assert (K : t_subm (k_finish_io t) = t_subm t /\ t_olds (k_finish_io t) = t_olds t /\ t_outst (k_finish_io t) = false).
        { unfold k_finish_io. destruct (t_sync t); rt_cbn; auto. unfold notify. rt_cbn.
          destruct (t_waiters t) as [|w ws]; rt_cbn; auto. destruct (w_switch w); rt_cbn; auto. }
        destruct K as (K1 & K2 & K3). destruct R as (R1 & R2 & R3 & R4). rewrite K1, skipn_all, app_nil_r.
        unfold out_ok, pending in *. rewrite K1, K2, K3, EO in *. cbn [note_finish n_written n_pad n_writes]. rewrite R4, wrap_add. splits; auto. f_equal. lia.
      * destruct (t_kfull t); [discriminate|]. apply some_inj in E. subst t'. apply (out_same bs t _ c _ R); auto. kp.
    + apply some_inj in E. subst t'. destruct (t_flight t); apply (out_same bs t _ c _ R); auto; kp.
  - apply some_inj in E. subst t'. inv_split H. rewrite EP in HPc. cbn [inv_pc] in HPc. destruct HEn as ((E1 & E2 & E3 & E4) & E5 & E6).
    unfold k_write. destruct (encoded t =? 0) eqn:E0; [apply (out_same bs t _ c _ R); auto; kp|].
    cbn [swapBuffer]. destruct R as (R1 & R2 & R3 & R4). unfold out_ok, pending in *. rt_cbn. rewrite HPc in *.
    rewrite skipn_app, skipn_all, Nat.sub_diag. cbn [app skipn note_write padding andb n_written n_pad n_writes].
    set (x := load (e_mem (t_en t)) (e_base (t_en t)) (Z.to_nat (encoded t))).
    assert (EX : zlen x = encoded t) by (unfold x; rewrite load_zlen; unfold encoded, getEncodedBytes in *; lia).
    rewrite !concat_app, R1. cbn [concat]. rewrite !app_nil_r. splits.
    + now rewrite app_assoc.
    + rewrite R2, wrap_add, R1, (zlen_app _ _ x), EX. f_equal. lia.
    + rewrite R3. reflexivity.
    + rewrite R4, zlen_app. f_equal. rewrite zlen_cons, zlen_nil. lia.
  - discriminate.
Qed.

Lemma subm_file : forall small t, inv small t -> concat (t_subm t) = t_file t ++ concat (in_flight t).
Proof. intros small t H. inv_split H. destruct HSu as (dn & -> & ->). now rewrite concat_app. Qed.

Lemma step_out : forall small bs l t t' c, inv small t -> legal small l t -> rt_step l t = Some t' -> out_ok bs t c ->
  out_ok (bs ++ skipn (length (t_subm t)) (t_subm t')) t' (count l t c).
Proof.
  intros small bs l t t' c H L E R. destruct l; cbn [rt_step] in E; try (eapply thread_out; eassumption); try destruct L; cbn [count].
  15: { destruct (t_sw t); try discriminate. destruct (t_kpc t) eqn:EP; try discriminate. destruct (encoder _ _ _ _ _ _ _); [|discriminate].
    apply some_inj in E. subst t'. rt_cbn. rewrite skipn_nil, app_nil_r. pose proof (subm_file _ _ H) as SF. pose proof H as H'. inv_split H'. rewrite EP in HPc. cbn [inv_pc] in HPc.
    destruct HPc as (HO & _). destruct (nil_flight _ _ H (or_introl HO)) as (F1 & _). unfold in_flight in SF. rewrite F1 in SF. cbn [map concat] in SF. rewrite app_nil_r in SF.
    destruct R as (R1 & R2 & R3 & R4). unfold out_ok, pending in *. rt_cbn. rewrite R1, SF, concat_app. cbn [concat]. rewrite !app_nil_r. splits; auto. now rewrite R2, R1, SF. }
  all: apply (out_same bs t t' c _ R); auto; try exact (on_ring_keeps _ _ _ _ E).
  all: repeat match type of E with
    | context [match ?x with _ => _ end] => destruct x; try discriminate E
    end; apply some_inj in E; subst t'; first [apply notify_keeps; kp | kp].
Qed.

(** ** Messages of the files *)

Lemma counted_reach : forall ok bs t c, counted ok bs t c -> reach ok t.
Proof. intros ok bs t c H. induction H; [eapply reach_init; eauto|eapply reach_step; eauto]. Qed.

Lemma counted_ok : forall small (ok : rlabel -> rt -> Prop) bs t c, (forall l t, ok l t -> legal small l t) -> counted ok bs t c -> inv small t /\ reads_ok t c /\ out_ok bs t c.
Proof.
  intros small ok bs t c HL H. induction H as [m size b1 b2 r u cp t H1 H2 H3 H4 E|l bs t c t' H (I1 & I2 & I3) HO E].
  - split; [eapply init_inv; eauto|]. unfold rt_init in E. destruct (encoder _ _ _ _ _ _ _); [|discriminate]. apply some_inj in E. subst t.
    unfold reads_ok, out_ok, taken_bytes, taken_messages, pending. rt_cbn. splits; reflexivity.
  - splits; [eapply step_inv_rt; eauto|eapply step_reads; eauto|eapply step_out; eauto].
Qed.

Lemma by_thread : forall ids (l : list shown), NoDup ids -> (forall s, In s l -> In (sh_tid s) ids) ->
  zlen l = total (map (fun id => zlen (filter (fun s => sh_tid s =? id) l)) ids).
Proof.
  intros ids l ND. induction l as [|s l IH]; intros H.
  - cbn [filter]. unfold total. clear. induction ids; cbn [map fold_right] in *; rewrite ?zlen_nil in *; lia.
  - rewrite zlen_cons, IH by (intros; apply H; now right). clear IH.
    assert (HS : In (sh_tid s) ids) by (apply H; now left). clear H.
    assert (X : forall ids, ~ In (sh_tid s) ids -> total (map (fun id => zlen (filter (fun s => sh_tid s =? id) (s :: l))) ids) =
      total (map (fun id => zlen (filter (fun s => sh_tid s =? id) l)) ids)).
    { intros is N. apply total_ext. intros id Hid. cbn [filter]. destruct (Z.eqb_spec (sh_tid s) id); [|reflexivity]. congruence. }
    induction ND as [|i ids N ND IH]; [destruct HS|]. cbn [map]. unfold total in *. cbn [fold_right].
    destruct (Z.eqb_spec (sh_tid s) i) as [<- | NE].
    + rewrite X by exact N. cbn [filter]. rewrite Z.eqb_refl, zlen_cons. lia.
    + destruct HS as [HS | HS]; [congruence|]. specialize (IH HS). cbn [filter] in *. replace (sh_tid s =? i) with false by lia. lia.
Qed.

Lemma emitted_negative : forall small sites gs bytes id, wires small sites gs bytes -> id < 0 -> emitted id gs = [].
Proof.
  intros small sites gs bytes id (bss & W & _) H. induction W as [|g b gs bss W _ IH]; [reflexivity|].
  unfold emitted in *. cbn [map concat]. rewrite IH, app_nil_r. destruct g as [| |tid np xs]; cbn [emits]; auto. cbn [wire] in W.
  replace (tid =? id) with false by lia. reflexivity.
Qed.

Lemma tid_lines_concat : forall id lss, concat (map (tid_lines id) lss) = tid_lines id (concat lss).
Proof. intros id. induction lss as [|ls lss IH]; [reflexivity|]. cbn [map concat]. now rewrite IH, tid_lines_app. Qed.

Lemma Forall2_zlen : forall A B (R : A -> B -> Prop) l l', Forall2 R l l' -> zlen l = zlen l'.
Proof. intros A B R l l' H. induction H; [reflexivity|]. rewrite !zlen_cons. lia. Qed.

Lemma taken_le : forall small sites b, buf_ok small sites b -> (b_taken b <= length (b_msgs b))%nat.
Proof.
  intros small sites b (_ & _ & A & _ & B & _). assert (LE : length (b_msgs b) = length (all_sent (b_ring b))) by (clear - A; induction A; cbn; auto).
  rewrite LE. unfold all_sent. rewrite app_length. lia.
Qed.

Lemma shown_total : forall conv text t, reach (normal conv text) t ->
  exists lss, Forall2 (decodes conv) (t_olds t ++ [t_file t]) lss /\
    (getEncodedBytes (t_en t) = 0 -> t_flight t = [] -> zlen (messages (concat lss)) = taken_messages t).
Proof.
  intros conv text t R. pose proof (normal_inv _ _ _ R) as H. destruct (file_lines conv text t R) as (lss & DEC & ALL).
  exists lss. split; [exact DEC|]. intros D1 D2. pose proof H as H'. inv_split H'.
  assert (G1 : t_gflight t = []) by (apply (nil_flight True t H); auto).
  assert (G2 : t_glog t = []) by (eapply wires_empty; unfold encoded_bytes in HGl; rewrite D1 in HGl; exact HGl).
  assert (EV : concat (t_golds t) ++ t_gfile t = everything t) by (unfold everything, sect; now rewrite G1, G2, !app_nil_r).
  rewrite EV in ALL. destruct HAc as (A1 & A2 & A3). destruct HId as (I1 & I2 & _).
  assert (ND : NoDup (map b_id (t_bufs t ++ t_gone t))) by (rewrite map_app; rewrite app_assoc in I1; now apply NoDup_left in I1).
  rewrite (by_thread (map b_id (t_bufs t ++ t_gone t)) _ ND).
  - unfold taken_messages. rewrite map_map. apply total_ext. intros b Hb.
    change (filter (fun s => sh_tid s =? b_id b) (messages (concat lss))) with (tid_lines (b_id b) (concat lss)).
    rewrite <- tid_lines_concat, <- (Forall2_zlen _ _ _ _ _ (ALL (b_id b))).
    destruct HBu as (B1 & B2). apply in_app_or in Hb. destruct Hb as [Hb | Hb].
    + eapply Forall_forall in A1; eauto. eapply Forall_forall in B1; eauto. apply taken_le in B1. rewrite A1. unfold zlen. rewrite firstn_length. lia.
    + eapply Forall_forall in A2; eauto. destruct A2 as (A2 & A4). rewrite A2, A4. reflexivity.
  - intros s Hs. specialize (ALL (sh_tid s)). rewrite tid_lines_concat in ALL.
    assert (NE : emitted (sh_tid s) (everything t) <> []).
    { intro X. rewrite X in ALL. assert (Y : In s (tid_lines (sh_tid s) (concat lss))) by (apply filter_In; split; [exact Hs|apply Z.eqb_refl]).
      destruct (tid_lines (sh_tid s) (concat lss)); [destruct Y|inversion ALL]. }
    destruct (Z.lt_ge_cases (sh_tid s) 0) as [HN | HN].
    + exfalso. apply NE. rewrite <- EV, emitted_app, (emitted_negative _ _ _ _ _ HFi HN), app_nil_r.
      clear - HOl HN. unfold inv_olds in HOl. induction HOl as [|g f gs fs (W & _) _ IH]; [reflexivity|]. cbn [concat].
      now rewrite emitted_app, IH, (emitted_negative _ _ _ _ _ W HN).
    + destruct (emitted_buf True t _ H HN NE) as (b & B1 & B2 & _). rewrite <- B2. now apply in_map.
Qed.

Lemma drained_all : forall small t, inv small t -> drained t -> forall b, In b (t_bufs t ++ t_gone t) ->
  b_taken b = length (b_msgs b) /\ r_got (b_ring b) = concat (r_sent (b_ring b)).
Proof.
  intros small t H (_ & _ & D) b Hb. inv_split H. destruct HBu as (B1 & B2). destruct HAc as (_ & A2 & _). apply in_app_or in Hb. destruct Hb as [Hb | Hb].
  - eapply Forall_forall in D; eauto. destruct D as (D3 & D4). eapply Forall_forall in B1; eauto. pose proof (taken_le _ _ _ B1) as TL.
    destruct B1 as (_ & _ & B & B3 & B4 & _). assert (NE := staged_nonempty _ _ _ B). unfold all_sent in *. rewrite D3, app_nil_r in *.
    assert (LE : length (b_msgs b) = length (r_sent (b_ring b))) by (clear - B; induction B; cbn; auto).
    split; [|exact D4]. apply Nat.le_antisymm; [exact TL|]. rewrite LE. apply (concat_mono (r_sent (b_ring b))); auto.
    rewrite firstn_all, <- D4, B3. lia.
  - eapply Forall_forall in B2; eauto. eapply Forall_forall in A2; eauto. destruct A2 as (_ & A2). split; [exact A2|].
    destruct B2 as (_ & _ & B & B3 & B4 & _). assert (LE : length (b_msgs b) = length (all_sent (b_ring b))) by (clear - B; induction B; cbn; auto).
    unfold all_sent in LE. rewrite app_length in LE. rewrite B3, firstn_all2 by lia. reflexivity.
Qed.

(** ** C70 *)

(** With every signal: when no write is taken to be going on, all were counted and are complete. *)
Definition C70_full : Prop := forall bs t c, counted proper bs t c -> t_outst t = false -> n_writes c = to_u 32 (zlen bs - zlen (t_flight t)).

(** totalBytesRead are the bytes taken from the threads' buffers; totalBytesWritten those of the files and the write
    going on; each write is counted once. *)
Theorem C70_bytes_partial : forall bs t c, counted (fun l t => proper l t /\ uninterrupted l) bs t c ->
  n_read c = to_u 64 (taken_bytes t) /\ (drained t -> n_read c = to_u 64 (logged_bytes t)) /\
  concat bs = concat (t_olds t) ++ t_file t ++ concat (in_flight t) /\ n_written c = to_u 64 (zlen (concat bs)) /\ n_pad c = 0 /\
  n_writes c = to_u 32 (zlen bs - if t_outst t then 1 else 0) /\ (t_outst t = false -> t_flight t = []).
Proof.
  intros bs t c H. destruct (counted_ok False (fun l t => proper l t /\ uninterrupted l) bs t c (fun l0 t0 P => proper_legal l0 t0 (proj1 P) (proj2 P)) H) as (I & (R1 & R2) & O1 & O2 & O3 & O4).
  splits; auto.
  - intros D. rewrite R1. f_equal. unfold taken_bytes, logged_bytes. apply total_ext. intros b Hb. now rewrite (proj2 (drained_all _ _ I D b Hb)).
  - now rewrite O1, (subm_file _ _ I).
  - intros F. exact (proj1 (nil_flight _ _ I (or_introl F))).
Qed.
Print Assumptions C70_bytes_partial.

(** logsProcessed, the number of events reported, is the number of messages in the files as soon as all that was encoded
    has been written, and that of all messages logged once everything has been. *)
Theorem C70_events_partial : forall conv text bs t c, counted (normal conv text) bs t c ->
  exists lss, Forall2 (decodes conv) (t_olds t ++ [t_file t]) lss /\
    (getEncodedBytes (t_en t) = 0 -> t_flight t = [] -> n_logs c = to_u 64 (zlen (messages (concat lss)))) /\
    (drained t -> n_logs c = to_u 64 (logged_messages t)).
Proof.
  intros conv text bs t c H. assert (L : forall l0 t0, normal conv text l0 t0 -> legal True l0 t0) by (intros l0 t0 (A & B & C & _); now apply proper_small_legal).
  destruct (counted_ok True (normal conv text) bs t c L H) as (I & (R1 & R2) & _).
  destruct (shown_total conv text t (counted_reach _ _ _ _ H)) as (lss & D & E). exists lss. splits; auto.
  - intros. now rewrite E.
  - intros DR. rewrite R2. f_equal. unfold taken_messages, logged_messages. apply total_ext. intros b Hb. now rewrite (proj1 (drained_all _ _ I DR b Hb)).
Qed.
Print Assumptions C70_events_partial.

(** ** Runs *)

Fixpoint count_run (ls : list rlabel) (bs : list (list Z)) (t : rt) (c : counts) : option (list (list Z) * rt * counts) :=
  match ls with
  | [] => Some (bs, t, c)
  | l :: ls' =>
    match rt_step l t with
    | None => None
    | Some t' => count_run ls' (bs ++ skipn (length (t_subm t)) (t_subm t')) t' (count l t c)
    end
  end.

Lemma begin_counted : forall (ok : rlabel -> rt -> Prop) t, reach (fun l s => starting l = true /\ ok l s) t ->
  counted ok [] t no_counts /\ t_subm t = [].
Proof.
  intros ok t R. induction R as [m size b1 b2 r u c t H1 H2 H3 H4 E|l t t' R (IH & S) (HL & HO) E].
  - split; [eapply counted_init; eauto|]. unfold rt_init in E. destruct (encoder _ _ _ _ _ _ _); [|discriminate]. apply some_inj in E. now subst t.
  - assert (S' : t_subm t' = t_subm t).
    { destruct l; try discriminate HL; cbn [rt_step] in E; try (apply some_inj in E; now subst t').
      destruct (nth_error (t_pend t) k); [|discriminate]. apply some_inj in E. now subst t'. }
    split; [|congruence]. pose proof (counted_step ok l [] t no_counts t' IH HO E) as X.
    rewrite S', skipn_all in X. destruct l; try discriminate HL; exact X.
Qed.

Lemma run_counted : forall (ok : rlabel -> rt -> Prop) ls bs t c bs' t' c', counted ok bs t c -> forallb demo_label ls = true ->
  t_sites t = [fsite 7] -> count_run ls bs t c = Some (bs', t', c') ->
  (forall l s, In l ls -> demo_label l = true -> t_sites s = [fsite 7] -> ok l s) -> counted ok bs' t' c'.
Proof.
  intros ok. induction ls as [|l ls IH]; intros bs t c bs' t' c' R P HS E H; cbn [count_run forallb] in *.
  - apply some_inj in E. congruence.
  - apply andb_prop in P. destruct P as (P1 & P2). destruct (rt_step l t) as [t1|] eqn:E1; [|discriminate].
    assert (S1 : t_sites t1 = t_sites t) by (eapply step_sites; [exact E1|]; intros s ->; discriminate P1).
    refine (IH _ t1 _ _ _ _ _ P2 _ E _); [|congruence|].
    + eapply counted_step; eauto. apply H; auto. now left.
    + intros l0 s Hl Hp Hs. apply H; auto. now right.
Qed.

Definition count_demo (size : Z) (k : nat) (ls : list rlabel) : option (list (list Z) * rt * counts) :=
  match first_state size with
  | None => None
  | Some t => match rt_run (begin k) t with None => None | Some t1 => count_run ls [] t1 no_counts end
  end.

Lemma demo_counted : forall (ok : rlabel -> rt -> Prop) size k ls bs t c, 0 <= size <= 1000 -> Z.of_nat k < 1000 ->
  forallb demo_label ls = true -> count_demo size k ls = Some (bs, t, c) ->
  (forall l s, normal Prop_Message.show textof l s -> ok l s) ->
  (forall l s, In l ls -> demo_label l = true -> t_sites s = [fsite 7] -> ok l s) -> counted ok bs t c.
Proof.
  intros ok size k ls bs t c H1 H2 HL E H3 H4. unfold count_demo in E. destruct (first_state size) as [t0|] eqn:E0; [|discriminate].
  destruct (rt_run (begin k) t0) as [t1|] eqn:E1; [|discriminate].
  destruct (demo_begin (fun l s => starting l = true /\ ok l s) size k t0 t1 H1 H2 E0 E1 (fun l s A B => conj A (H3 l s B))) as (R & S).
  destruct (begin_counted ok t1 R) as (C & _). eapply run_counted; eauto.
Qed.

(** In the run of Prop_RuntimeRuns.v with a signal the write still going on is counted. *)
Theorem C70_refuted : ~ C70_full.
Proof.
  intro H. destruct (count_demo 100 1 (firstn 547 signal_run)) as [[[bs t] c]|] eqn:E.
  - assert (X : match count_demo 100 1 (firstn 547 signal_run) with
      Some (bs, t, c) => (t_outst t, n_writes c, zlen bs, zlen (t_flight t)) = (false, 1, 1, 1) | None => False end)
      by (vm_compute; reflexivity).
    rewrite E in X. injection X as X1 X2 X3 X4.
    assert (R : counted proper bs t c).
    { refine (demo_counted proper 100 1 (firstn 547 signal_run) bs t c ltac:(lia) ltac:(lia) _ E _ _).
      - vm_compute. reflexivity.
      - intros l s N. exact (proj1 N).
      - intros l s _ HD HS. now apply (demo_label_ok l s HD HS). }
    specialize (H bs t c R X1). rewrite X2, X3, X4 in H. vm_compute in H. discriminate H.
  - assert (X : match count_demo 100 1 (firstn 547 signal_run) with Some _ => true | None => false end = true) by (vm_compute; reflexivity).
    rewrite E in X. discriminate X.
Qed.
Print Assumptions C70_refuted.

(** The three messages of good_run: 60 bytes in, 85 bytes out, in a write the thread has not yet looked after. *)
Example C70_instance : exists bs t, count_demo 200 2 good_run = Some (bs, t, Counts 60 (zlen (t_file t)) 0 3 0) /\
  counted (normal Prop_Message.show textof) bs t (Counts 60 (zlen (t_file t)) 0 3 0) /\ drained t /\ t_outst t = true /\ zlen (t_file t) = 85.
Proof.
  destruct (count_demo 200 2 good_run) as [[[bs t] c]|] eqn:E.
  - assert (X : match count_demo 200 2 good_run with Some (bs, t, c) => c = Counts 60 85 0 3 0 /\ zlen (t_file t) = 85 /\ quiet t = true /\ t_outst t = true | None => False end)
      by (vm_compute; splits; reflexivity).
    rewrite E in X. destruct X as (-> & X2 & X3 & X4). exists bs, t. rewrite X2. splits; auto.
    + refine (demo_counted (normal Prop_Message.show textof) 200 2 good_run bs t _ ltac:(lia) ltac:(lia) _ E (fun l s N => N) _); [vm_compute; reflexivity|].
      intros l s Hl HD HS. apply (demo_label_ok l s HD HS). intros ->. vm_compute in Hl. repeat (destruct Hl as [Hl | Hl]; [discriminate Hl|]). destruct Hl.
    + now apply quiet_drained.
  - exfalso. assert (X : match count_demo 200 2 good_run with Some _ => true | None => false end = true) by (vm_compute; reflexivity).
    rewrite E in X. discriminate X.
Qed.

(** ** C71 *)

Fixpoint note_writes (direct : bool) (ns : list Z) (c : counts) : counts :=
  match ns with
  | [] => c
  | n :: r => note_writes direct r (note_write direct n c)
  end.

(** The bytes of the log's entries in the writes [ns], and those in the file: with O_DIRECT only whole blocks of
    512 bytes are written. *)
Definition blocks (n : Z) : Z := (n + 511) / 512 * 512.
Definition file_size (direct : bool) (ns : list Z) : Z := total (map (fun n => if direct then blocks n else n) ns).

(** The ratios reported are those of the bytes logged to the bytes in the file and to the bytes of the log's entries. *)
Definition C71_full : Prop := forall direct ns read, Forall (fun n => 0 < n) ns -> ns <> [] -> 2 * file_size direct ns < 2 ^ 53 -> 0 <= read < 2 ^ 53 ->
  let c := note_writes direct ns (Counts read 0 0 0 0) in
  exists low high, ratio_low c = Some low /\ ratio_high c = Some high /\
    (low == inject_Z read / inject_Z (file_size direct ns))%Q /\ (high == inject_Z read / inject_Z (total ns))%Q.

Lemma padding_blocks : forall n, n + padding true n = blocks n.
Proof. intros n. unfold padding, blocks. cbn [andb]. destruct (n mod 512 =? 0) eqn:E; cbn [negb]; lia. Qed.

Lemma total_nonneg : forall l, Forall (fun n => 0 < n) l -> 0 <= total l.
Proof. intros l H. induction H; unfold total in *; cbn [fold_right]; lia. Qed.

Lemma file_size_ge : forall direct ns, Forall (fun n => 0 < n) ns -> total ns <= file_size direct ns.
Proof.
  intros direct ns H. unfold file_size. induction H; [cbn; lia|]. unfold total in *. cbn [map fold_right]. destruct direct; [|lia].
  assert (x <= blocks x) by (unfold blocks; lia). lia.
Qed.

(** What the counters hold with and without O_DIRECT. *)
Theorem C71_counters : forall direct ns read, Forall (fun n => 0 < n) ns -> file_size direct ns < 2 ^ 64 ->
  let c := note_writes direct ns (Counts read 0 0 0 0) in
  n_read c = read /\ n_written c = file_size direct ns /\ n_pad c = file_size direct ns - total ns.
Proof.
  intros direct ns read H HB. cbv zeta.
  assert (G : forall ns c, Forall (fun n => 0 < n) ns -> 0 <= n_written c -> 0 <= n_pad c <= n_written c -> n_written c + file_size direct ns < 2 ^ 64 ->
    n_read (note_writes direct ns c) = n_read c /\ n_written (note_writes direct ns c) = n_written c + file_size direct ns /\
    n_pad (note_writes direct ns c) = n_pad c + (file_size direct ns - total ns)).
  { clear. induction ns as [|n ns IH]; intros c H H0 H1 H2.
    - unfold file_size, total. cbn [note_writes map fold_right]. lia.
    - inversion H as [|? ? Hn Hr]; subst. pose proof (file_size_ge direct ns Hr) as G1. pose proof (total_nonneg ns Hr) as G2.
      assert (E : n + padding direct n = if direct then blocks n else n) by (destruct direct; [apply padding_blocks|unfold padding; cbn; lia]).
      assert (P : 0 <= padding direct n) by (unfold padding; destruct (direct && _); lia).
      assert (F : file_size direct (n :: ns) = (n + padding direct n) + file_size direct ns) by (unfold file_size, total; cbn [map fold_right]; lia).
      assert (T : total (n :: ns) = n + total ns) by reflexivity.
      rewrite F in *. rewrite T. cbn [note_writes].
      assert (W1 : n_written (note_write direct n c) = n_written c + (n + padding direct n)) by (cbn [note_write n_written]; unfold to_u; apply Z.mod_small; lia).
      assert (W2 : n_pad (note_write direct n c) = n_pad c + padding direct n) by (cbn [note_write n_pad]; unfold to_u; apply Z.mod_small; lia).
      destruct (IH (note_write direct n c) Hr) as (A & B & C); [lia|lia|lia|]. rewrite A, B, C, W1, W2. cbn [note_write n_read]. lia. }
  destruct (G ns (Counts read 0 0 0 0) H) as (A & B & C); cbn [n_read n_written n_pad] in *; lia.
Qed.
Print Assumptions C71_counters.

Theorem C71_partial : forall ns read, Forall (fun n => 0 < n) ns -> ns <> [] -> 2 * file_size false ns < 2 ^ 53 -> 0 <= read < 2 ^ 53 ->
  let c := note_writes false ns (Counts read 0 0 0 0) in
  exists low high, ratio_low c = Some low /\ ratio_high c = Some high /\
    (low == inject_Z read / inject_Z (file_size false ns))%Q /\ (high == inject_Z read / inject_Z (total ns))%Q.
Proof.
  intros ns read H NE HB HR c.
  destruct (C71_counters false ns read H ltac:(lia)) as (A & B & C). fold c in A, B, C. clearbody c.
  assert (E : file_size false ns = total ns) by (unfold file_size; f_equal; apply map_id).
  assert (P : 0 < total ns) by (destruct ns as [|n ns]; [congruence|]; inversion H; subst; pose proof (total_nonneg ns ltac:(assumption)); unfold total in *; cbn [fold_right]; lia).
  unfold ratio_low, ratio_high, quotient. rewrite A, B, C, E. rewrite Z.sub_diag, Z.add_0_r. replace (total ns =? 0) with false by lia.
  exists (inject_Z read / inject_Z (total ns))%Q, (inject_Z read / inject_Z (total ns))%Q. splits; reflexivity.
Qed.
Print Assumptions C71_partial.

(** With O_DIRECT a write of 100 bytes is counted as 512 bytes and 412 of padding, which makes 924: the ratio to
    what is in the file comes out too low, and the one to the log's entries as well. *)
Theorem C71_refuted : ~ C71_full.
Proof.
  intro H. destruct (H true [100] 1024) as (low & high & A & B & C & D); [repeat constructor|discriminate|reflexivity|split; [discriminate|reflexivity]|].
  vm_compute in A. injection A as <-. vm_compute in C. discriminate C.
Qed.
Print Assumptions C71_refuted.

Example C71_instance : let c := note_writes true [100; 600] (Counts 3072 0 0 0 0) in
  (n_written c, n_pad c) = (1536, 836) /\ file_size true [100; 600] = 1536 /\ ratio_high c = Some (inject_Z 3072 / inject_Z 1536)%Q /\
  ratio_low (note_writes false [100; 600] (Counts 1400 0 0 0 0)) = Some (inject_Z 1400 / inject_Z 700)%Q.
Proof. vm_compute. splits; reflexivity. Qed.
