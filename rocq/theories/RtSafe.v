(** The invariant is kept by every step. *)
From Verif Require Import Base BaseProofs FrontFmt Args ArgsProofs DecodeProofs Encoder Wire EncoderProofs Prop_Encoder Decoder FileSpec
  DecoderProofs Prop_Decoder Ring RingProofs Prop_Ring Runtime RtRing RtBuf RtInv.
From Coq Require Import Permutation.

Ltac Zify.zify_post_hook ::= Z.div_mod_to_equations.

Ltac rt_cbn := cbn [t_sites t_nextp t_bufs t_gone t_pend t_nextid t_kpc t_ki t_klast t_kfull t_kwrap t_shadow t_en t_other t_outst t_flight t_file t_sync t_waiters t_kexit t_sw t_olds t_gfile t_gflight t_glog t_golds t_subm t_gstart t_gseen t_skip t_returned t_osize set_sites set_nextp set_bufs set_gone set_pend set_nextid set_kpc set_ki set_klast set_kfull set_kwrap set_shadow set_en set_other set_outst set_flight set_file set_sync set_waiters set_kexit set_sw set_olds set_gfile set_gflight set_glog set_golds set_subm set_gstart set_gseen set_skip set_returned].
Ltac rt_cbn_in H := cbn [t_sites t_nextp t_bufs t_gone t_pend t_nextid t_kpc t_ki t_klast t_kfull t_kwrap t_shadow t_en t_other t_outst t_flight t_file t_sync t_waiters t_kexit t_sw t_olds t_gfile t_gflight t_glog t_golds t_subm t_gstart t_gseen t_skip t_returned t_osize set_sites set_nextp set_bufs set_gone set_pend set_nextid set_kpc set_ki set_klast set_kfull set_kwrap set_shadow set_en set_other set_outst set_flight set_file set_sync set_waiters set_kexit set_sw set_olds set_gfile set_gflight set_glog set_golds set_subm set_gstart set_gseen set_skip set_returned] in H.

Ltac inv_split H := destruct H as (HSi & HBu & HId & HAc & HEn & HFl & HFi & HGl & HKn & HOl & HSu & HPc).
Ltac inv_open := unfold inv, everything, sect in *; rt_cbn; splits; auto.

Lemma NoDup_left : forall A (a b : list A), NoDup (a ++ b) -> NoDup a.
Proof.
  induction a as [|x a IH]; intros b H; [constructor|]. inversion H; subst. constructor; eauto.
  intro X. apply H2. apply in_or_app. now left.
Qed.

Lemma inv_new_pc : forall small t pc, inv small t -> inv_pc pc (t_outst t) (t_en t) -> inv small (set_kpc pc t).
Proof. intros small t pc H HP. inv_split H. inv_open. Qed.

Lemma on_ring_inv : forall small t j l t', inv small t -> on_ring j l t = Some t' -> logged [l] = [] ->
  (forall b, nth_error (t_bufs t) j = Some b -> reads l (b_ring b) = false) -> inv small t'.
Proof.
  intros small t j l t' H E HL HR. unfold on_ring in E. destruct (nth_error (t_bufs t) j) as [b|] eqn:EB; [|discriminate].
  destruct (ring_step SBS l (b_ring b)) as [r|] eqn:ER; [|discriminate]. apply some_inj in E. subst t'. inv_split H.
  specialize (HR b eq_refl). destruct b as [id r0 ms k]. cbn [b_id b_ring b_msgs b_taken] in *.
  inv_open.
  - destruct HBu as (A & B). split; auto. apply Forall_update; auto.
    eapply buf_step; eauto. eapply Forall_forall in A; [exact A|]. eapply nth_error_In; eauto.
  - unfold inv_ids in *. rewrite (map_update _ _ b_id j _ _ _ EB) by reflexivity. exact HId.
  - destruct HAc as (A & B & C). unfold inv_acc. splits; auto. apply Forall_update; auto.
    eapply Forall_forall in A; [|eapply nth_error_In; eauto]. exact A.
Qed.

Lemma log_inv_rt : forall small t j x t', inv small t -> legal small (RLog j x) t -> rt_step (RLog j x) t = Some t' -> inv small t'.
Proof.
  intros small t j x t' H HL E. cbn [rt_step legal] in *.
  destruct (nth_error (t_sites t) (Z.to_nat (sm_id x))) as [s|] eqn:ES; [|discriminate].
  destruct (nth_error (t_bufs t) j) as [b|] eqn:EB; [|discriminate].
  destruct (ring_step SBS (LLog (staged_bytes s x)) (b_ring b)) as [r|] eqn:ER; [|discriminate].
  apply some_inj in E. subst t'. inv_split H. destruct (HL s eq_refl) as (HL1 & HL2).
  destruct b as [id r0 ms k]. cbn [b_id b_ring b_msgs b_taken] in *.
  assert (HB : buf_ok small (t_sites t) (Buf id r0 ms k)).
  { destruct HBu as (A & _). eapply Forall_forall in A; [exact A|]. eapply nth_error_In; eauto. }
  inv_open.
  - destruct HBu as (A & B). split; auto. apply Forall_update; auto. eapply buf_log; eauto.
  - unfold inv_ids in *. rewrite (map_update _ _ b_id j _ _ _ EB) by reflexivity. exact HId.
  - destruct HAc as (A & B & C). unfold inv_acc. splits; auto. apply Forall_update; auto.
    eapply Forall_forall in A; [|eapply nth_error_In; eauto]. unfold acc_ok in *. cbn [b_id b_msgs b_taken] in *. rewrite A.
    symmetry. apply firstn_prefix. destruct HB as (_ & _ & C1 & _ & C2 & _). cbn [b_ring b_msgs b_taken] in *.
    assert (length ms = length (all_sent r0)) by (clear - C1; induction C1; cbn; auto).
    unfold all_sent in *. rewrite app_length in *. lia.
Qed.

Lemma register_inv : forall small t s, inv small t -> legal small (RRegister s) t -> inv small (set_sites (t_sites t ++ [s]) t).
Proof.
  intros small t s H (HL1 & HL2). inv_split H. inv_open.
  - destruct HSi as (A & B). split; [apply Forall_app; auto|]. rewrite zlen_app, zlen_cons, zlen_nil. lia.
  - destruct HBu as (A & B). split; eapply Forall_impl; try eassumption; intros; now apply buf_sites.
  - destruct HFl as [HFl | (A & n & B & C & D)]; [left; auto|]. right. split; auto. exists n. split; [auto|]. split; [auto|]. now apply wires_more.
  - now apply wires_more.
  - now apply wires_more.
  - destruct HKn as (A & B & C & D & F). unfold inv_known. rewrite zlen_app, zlen_cons, zlen_nil. splits; auto; try lia.
    + now apply gok_more.
    + rewrite F at 1. symmetry. apply firstn_prefix. unfold zlen in *. lia.
  - unfold inv_olds in *. clear - HOl. induction HOl as [|g b gs bs (A & B & C) _ IH]; constructor; auto.
    splits; auto using wires_more, gok_more.
Qed.

Lemma alloc_inv : forall small t, inv small t -> legal small RAlloc t ->
  inv small (set_pend (t_pend t ++ [t_nextid t]) (set_nextid (t_nextid t + 1) t)).
Proof.
  intros small t H HL. cbn [legal] in HL. inv_split H. inv_open.
  - destruct HId as (A & B & C & D). unfold inv_ids. rewrite !app_assoc. splits; try lia.
    + rewrite <- !app_assoc in *. apply (Permutation_NoDup (l := t_nextid t :: map b_id (t_bufs t) ++ map b_id (t_gone t) ++ t_pend t)).
      * rewrite !app_assoc. apply Permutation_cons_append.
      * constructor; auto. intro X. eapply Forall_forall in B; eauto. cbv beta in B. lia.
    + apply Forall_app. split; [|constructor; auto; lia]. rewrite <- app_assoc. eapply Forall_impl; [|exact B]. intros; cbv beta in *; lia.
    + rewrite zlen_app, zlen_cons, zlen_nil, <- app_assoc. cbv zeta in D. lia.
  - destruct HAc as (A & B & C). unfold inv_acc. splits; auto. intros id [HI | HI].
    + apply in_app_or in HI. destruct HI as [HI | [<- | []]]; apply C; auto. right. lia.
    + apply C. right. lia.
Qed.

Lemma push_inv : forall small t k t', inv small t -> rt_step (RPush k) t = Some t' -> inv small t'.
Proof.
  intros small t k t' H E. cbn [rt_step] in E. destruct (nth_error (t_pend t) k) as [id|] eqn:EK; [|discriminate].
  apply some_inj in E. subst t'. inv_split H. assert (HP := remove_perm _ _ _ _ EK). inv_open.
  - destruct HBu as (A & B). split; auto. apply Forall_app. split; auto. constructor; [apply buf_new|constructor].
  - destruct HId as (A & B & C & D). unfold inv_ids. rewrite map_app. cbn [map b_id].
    assert (P : Permutation (map b_id (t_bufs t) ++ map b_id (t_gone t) ++ t_pend t)
      ((map b_id (t_bufs t) ++ [id]) ++ map b_id (t_gone t) ++ remove_at k (t_pend t))).
    { rewrite <- app_assoc. apply Permutation_app_head. cbn [app].
      eapply perm_trans; [apply Permutation_app_head; exact HP|]. symmetry. apply Permutation_middle. }
    splits; try lia.
    + eapply Permutation_NoDup; eauto.
    + eapply Permutation_Forall; eauto.
    + apply Permutation_length in P. unfold zlen in *. lia.
  - destruct HAc as (A & B & C). unfold inv_acc. splits; auto.
    + apply Forall_app. split; auto. constructor; [|constructor]. unfold acc_ok. cbn [b_id b_msgs b_taken firstn].
      apply C. left. eapply nth_error_In; eauto.
    + intros i [HI | HI]; apply C; auto. left. eapply Permutation_in; [symmetry; exact HP|]. now right.
Qed.

Lemma notify_inv : forall small t, inv small t -> inv small (notify t).
Proof.
  intros small t H. unfold notify. destruct (t_waiters t) as [|w ws]; auto.
  destruct (w_switch w); inv_split H; inv_open.
Qed.

(** ** The compression thread *)

Lemma appended_bufs_inv : forall small t e b g nextp shadow bufs,
  inv small t -> appended (t_en t) e b -> wire small (t_sites t) g b ->
  inv_known (t_sites t) nextp shadow (sect t ++ [g]) ->
  inv_bufs small (t_sites t) bufs (t_gone t) -> inv_ids bufs (t_gone t) (t_pend t) (t_nextid t) ->
  inv_acc (everything t ++ [g]) bufs (t_gone t) (t_pend t) (t_nextid t) ->
  inv_pc (t_kpc t) (t_outst t) e ->
  inv small (set_bufs bufs (set_en e (set_nextp nextp (set_shadow shadow (set_glog (t_glog t ++ [g]) t))))).
Proof.
  intros small t e b g nextp shadow bufs H HA HW HK HB HI HC HP. inv_split H.
  destruct (appended_enc _ _ _ _ _ HEn HA) as (E1 & E2 & E3 & E4). unfold inv, everything, sect in *; rt_cbn.
  rewrite !app_assoc in *. splits; auto.
  - destruct HFl as [HFl | (A & n & B & C & D)]; [left; auto|]. right. split; auto. exists n. split; [auto|]. split; [auto|].
    rewrite E4 by lia. exact D.
  - rewrite E2. apply wires_app; auto. now apply wires_one.
  - destruct HSu as (dn & S1 & S2). exists dn. split; auto. rewrite S2. f_equal.
    destruct HFl as [(-> & _) | (A & n & -> & C & D)]; [reflexivity|].
    cbn [map fst snd]. rewrite E4 by lia. reflexivity.
Qed.

Lemma appended_inv : forall small t e b g nextp shadow,
  inv small t -> appended (t_en t) e b -> wire small (t_sites t) g b ->
  inv_known (t_sites t) nextp shadow (sect t ++ [g]) ->
  inv_acc (everything t ++ [g]) (t_bufs t) (t_gone t) (t_pend t) (t_nextid t) ->
  inv_pc (t_kpc t) (t_outst t) e ->
  inv small (set_en e (set_nextp nextp (set_shadow shadow (set_glog (t_glog t ++ [g]) t)))).
Proof.
  intros small t e b g nextp shadow H HA HW HK HC HP. pose proof H as H'. inv_split H'.
  pose proof (appended_bufs_inv small t e b g nextp shadow (t_bufs t) H HA HW HK HBu HId HC HP) as X.
  unfold inv, everything, sect in *. exact X.
Qed.

Lemma dict_inv : forall small t, inv small t -> inv small (k_dict t).
Proof.
  intros small t H. unfold k_dict.
  assert (H0 : inv small (set_kpc KScan (set_ki (t_klast t) (set_gstart (map b_id (t_bufs t)) (set_gseen [] (set_skip false t)))))).
  { inv_split H. inv_open. exact I. }
  destruct (t_nextp t <? zlen (t_sites t)) eqn:EN; [|exact H0].
  destruct (encodeNewDictionaryEntries (t_en t) (t_nextp t) (t_sites t)) as [[e n] ret] eqn:EE.
  pose proof H as H'. inv_split H'. destruct HEn as ((E1 & E2 & E3 & E4) & E5 & E6). destruct HSi as (S1 & S2).
  destruct HKn as (K1 & K2 & K3 & K4 & K5).
  apply dictionary_spec in EE; auto; try lia.
  2:{ apply Forall_forall. intros s Hs. eapply Forall_forall in S1; eauto. destruct S1 as (_ & _ & S3 & S4 & _).
      split; eapply Forall_impl; try eassumption; unfold nonzero_byte, is_byte; intros; cbn in *; lia. }
  2:{ unfold e_space. lia. }
  assert (LS : length (t_shadow t) = Z.to_nat (t_nextp t)).
  { rewrite K5, firstn_length. unfold zlen in *. lia. }
  destruct EE as [(D1 & -> & -> & ->)|(D1 & D2 & D3)].
  - rewrite Z.eqb_refl, app_nil_r, LS, Nat.sub_diag. cbn [firstn]. rewrite app_nil_r.
    unfold inv, everything, sect in *. exact H0.
  - cbv zeta in D3. set (news := firstn (Z.to_nat (n - t_nextp t)) (skipn (Z.to_nat (t_nextp t)) (t_sites t))) in *.
    pose proof (dict_bytes_zlen n news) as DZ. pose proof (zlen_nonneg _ (concat (map dict_entry news))).
    assert (ZD : 0 < zlen (dict_bytes n news)) by lia.
    destruct D3 as (D3 & D4 & _ & D5 & D6 & D7 & D8 & D9 & D10 & _).
    replace (e_wp e =? e_wp (t_en t)) with false by lia.
    assert (LN : length news = Z.to_nat (n - t_nextp t)).
    { subst news. rewrite firstn_length, skipn_length. unfold zlen in *. lia. }
    assert (SH : t_shadow t ++ firstn (Z.to_nat n - length (t_shadow t)) (skipn (length (t_shadow t)) (t_sites t)) = firstn (Z.to_nat n) (t_sites t)).
    { rewrite LS, K5, <- firstn_plus. f_equal. lia. }
    pose proof (appended_inv small _ e (dict_bytes n news) (GDict n news) n (firstn (Z.to_nat n) (t_sites t)) H0) as HA.
    rewrite SH. revert HA. unfold everything, sect. rt_cbn. intros HA. unfold everything, sect in HAc, K1, K2, K3.
    assert (X : inv small (set_en e (set_nextp n (set_shadow (firstn (Z.to_nat n) (t_sites t)) (set_glog (t_glog t ++ [GDict n news])
       (set_kpc KScan (set_ki (t_klast t) (set_gstart (map b_id (t_bufs t)) (set_gseen [] (set_skip false t)))))))))).
    { apply HA.
      - red. splits; auto; try lia; try tauto.
      - cbn [wire]. splits; auto; try lia.
      - unfold inv_known. splits; try lia.
        + apply gok_app. split; [exact K1|]. cbn [gok]. splits; auto.
          * subst news. rewrite LN. f_equal. f_equal. lia.
          * rewrite LN. lia.
        + destruct K2 as (r & u & c & gs & K2). rewrite K2. exists r, u, c. eexists. reflexivity.
        + rewrite gknown_app. cbn [gknown]. rewrite LN. lia.
        + reflexivity.
      - destruct HAc as (A & B & C). unfold inv_acc. splits.
        + eapply Forall_impl; [|exact A]. intros b Hb. unfold acc_ok in *. rewrite emitted_app, Hb. cbn. now rewrite app_nil_r.
        + eapply Forall_impl; [|exact B]. intros b (Hb & Hb'). unfold gone_ok in *. rewrite emitted_app, Hb. cbn. now rewrite app_nil_r.
        + intros id Hi. rewrite emitted_app, C by auto. reflexivity.
      - exact I. }
    exact X.
Qed.

Lemma NoDup_not_right : forall A (a b : list A) x, NoDup (a ++ b) -> In x a -> ~ In x b.
Proof.
  induction a as [|y a IH]; intros b x H HI HJ; [destruct HI|]. inversion H; subst. destruct HI as [-> | HI].
  - apply H2. apply in_or_app. now right.
  - eapply IH; eauto.
Qed.

Lemma same_buf : forall bufs (rest : list Z) j k (a b : buf), NoDup (map b_id bufs ++ rest) ->
  nth_error bufs j = Some a -> nth_error bufs k = Some b -> b_id a = b_id b -> j = k.
Proof.
  intros bufs rest j k a b H HJ HK E. apply NoDup_left in H. rewrite NoDup_nth_error in H. apply H.
  - rewrite map_length. apply nth_error_Some. congruence.
  - rewrite !nth_error_map, HJ, HK. cbn. congruence.
Qed.

Lemma encode_inv : forall small t b n t', inv small t -> t_kpc t = KEnc -> nth_error (t_bufs t) (Z.to_nat (t_ki t)) = Some b ->
  c_pc (r_c (b_ring b)) = CHave n -> 0 < n -> k_encode t b n = Some t' -> inv small t'.
Proof.
  intros small t b n t' H HPC HB HC Hn E. unfold k_encode in E.
  destruct (encodeLogMsgs (t_en t) (s_data (r_mem (b_ring b))) (c_pos (r_c (b_ring b))) (Z.min RELEASE n) (b_id b) (t_kwrap t) (t_shadow t))
    as [[e read] cnt] eqn:EE. pose proof H as H'. inv_split H'.
  pose proof HKn as (K1 & K2 & K3 & K4 & K5). rewrite K5 in EE.
  assert (HO : buf_ok small (t_sites t) b).
  { destruct HBu as (A & _). eapply Forall_forall in A; [exact A|]. eapply nth_error_In; eauto. }
  assert (HI0 : 0 <= b_id b < 2 ^ 32).
  { destruct HId as (_ & A & B & _). eapply Forall_forall in A; [|apply in_or_app; left; apply in_map; eapply nth_error_In; eauto].
    cbv beta in A. lia. }
  destruct (buf_encode small (t_sites t) (Z.to_nat (t_nextp t)) b n (t_en t) (t_kwrap t) e read cnt HO HC Hn (proj1 HEn) HI0 EE)
    as (R1 & R2 & R3 & R4 & R5). cbv zeta in R5.
  set (xs := firstn (Z.to_nat cnt) (skipn (b_taken b) (b_msgs b))) in *.
  destruct R5 as [(-> & -> & _) | (ws & W1 & W2 & W3 & W4 & W5 & W6 & W7 & W8 & W9 & W10 & W11)].
  - rewrite !Z.eqb_refl in E. apply some_inj in E. subst t'. rewrite app_nil_r. unfold inv, everything, sect in *.
    rt_cbn. rewrite HPC in HPc. splits; auto.
  - pose proof (extent_zlen (b_id b) (t_kwrap t) ws) as EZ. replace (e_wp e =? e_wp (t_en t)) with false in E by lia.
    assert (HA : appended (t_en t) e (extent_bytes (b_id b) (t_kwrap t) ws)) by (red; splits; auto; try lia; tauto).
    assert (HW : wire small (t_sites t) (GExtent (b_id b) (t_kwrap t) xs) (extent_bytes (b_id b) (t_kwrap t) ws)).
    { cbn [wire]. split; [auto|]. split.
      - exists (firstn (Z.to_nat cnt) (skipn (b_taken b) (all_sent (b_ring b)))). destruct HO as (_ & _ & HO & _).
        apply Forall2_firstn_n. now apply Forall2_skipn.
      - exists ws. splits; auto. }
    assert (HK : inv_known (t_sites t) (t_nextp t) (t_shadow t) (sect t ++ [GExtent (b_id b) (t_kwrap t) xs])).
    { unfold inv_known. splits; try lia; auto.
      - apply gok_app. split; auto. cbn [gok]. split; auto. eapply Forall_impl; [|exact W10]. cbv beta. intros. lia.
      - destruct K2 as (r & u & c & gs & ->). repeat eexists.
      - rewrite gknown_app. exact K3. }
    destruct HAc as (A1 & A2 & A3).
    destruct (Z.eqb_spec read 0) as [Er | Er].
    + specialize (R2 Er). subst cnt. change xs with (@nil smsg) in *. apply some_inj in E. subst t'.
      pose proof (appended_inv small t e _ _ (t_nextp t) (t_shadow t) H HA HW HK) as X.
      assert (Y : inv small (set_en e (set_nextp (t_nextp t) (set_shadow (t_shadow t) (set_glog (t_glog t ++ [GExtent (b_id b) (t_kwrap t) []]) t))))).
      { apply X.
        - unfold inv_acc. splits.
          + eapply Forall_impl; [|exact A1]. intros c Hc. unfold acc_ok in *. rewrite emitted_app, Hc. cbn. destruct (b_id b =? b_id c); cbn; now rewrite ?app_nil_r.
          + eapply Forall_impl; [|exact A2]. intros c (Hc & Hc'). unfold gone_ok in *. rewrite emitted_app, Hc. cbn. destruct (b_id b =? b_id c); cbn; now rewrite ?app_nil_r.
          + intros id Hi. rewrite emitted_app, A3 by auto. cbn. now destruct (b_id b =? id).
        - rewrite HPC. exact I. }
      clear - Y. inv_split Y. unfold inv, everything, sect in *. rt_cbn. rt_cbn_in HSi. splits; auto; exact I.
    + destruct R4 as (r' & S1 & S2 & _); [lia|]. rewrite S1 in E. apply some_inj in E. subst t'.
      set (b' := Buf (b_id b) r' (b_msgs b) (b_taken b + Z.to_nat cnt)) in *.
      pose proof (appended_bufs_inv small t e _ _ (t_nextp t) (t_shadow t) (update (Z.to_nat (t_ki t)) b' (t_bufs t)) H HA HW HK) as X.
      assert (Y : inv small (set_bufs (update (Z.to_nat (t_ki t)) b' (t_bufs t))
         (set_en e (set_nextp (t_nextp t) (set_shadow (t_shadow t) (set_glog (t_glog t ++ [GExtent (b_id b) (t_kwrap t) xs]) t)))))).
      { apply X.
        - destruct HBu as (B1 & B2). split; auto. now apply Forall_update.
        - unfold inv_ids in *. rewrite (map_update _ _ b_id _ _ _ _ HB) by reflexivity. exact HId.
        - destruct HId as (I1 & I2 & _). unfold inv_acc. splits.
          + apply Forall_forall. intros c Hc. apply In_nth_error in Hc. destruct Hc as (k & Hc). rewrite update_nth, HB in Hc.
            destruct (Nat.eqb_spec k (Z.to_nat (t_ki t))) as [Ek | Ek].
            * apply some_inj in Hc. subst c. unfold acc_ok. rewrite emitted_app. subst b'. cbn [b_id b_taken b_msgs].
              rewrite firstn_plus. eapply Forall_forall in A1; [|eapply nth_error_In; exact HB]. unfold acc_ok in A1. rewrite A1.
              cbn. rewrite Z.eqb_refl, app_nil_r. reflexivity.
            * assert (b_id b <> b_id c) by (intro; apply Ek; symmetry; eapply same_buf; eauto).
              eapply Forall_forall in A1; [|eapply nth_error_In; exact Hc]. unfold acc_ok in *. rewrite emitted_app, A1.
              cbn. replace (b_id b =? b_id c) with false by lia. cbn. now rewrite app_nil_r.
          + apply Forall_forall. intros c Hc. eapply Forall_forall in A2; eauto. destruct A2 as (A2 & A4). split; auto.
            rewrite emitted_app, A2. cbn. destruct (Z.eqb_spec (b_id b) (b_id c)) as [Eq|]; cbn; [|now rewrite app_nil_r].
            exfalso. apply (NoDup_not_right _ _ _ (b_id b) I1); [apply in_map; eapply nth_error_In; eauto|].
            apply in_or_app. left. rewrite Eq. now apply in_map.
          + intros id Hi. rewrite emitted_app, A3 by auto. cbn. destruct (Z.eqb_spec (b_id b) id) as [Eq|]; [|reflexivity].
            exfalso. destruct Hi as [Hi | Hi].
            * apply (NoDup_not_right _ _ _ (b_id b) I1); [apply in_map; eapply nth_error_In; eauto|].
              apply in_or_app. right. now rewrite Eq.
            * eapply Forall_forall in I2; [|apply in_or_app; left; apply in_map; eapply nth_error_In; exact HB]. cbv beta in I2. lia.
        - rewrite HPC. exact I. }
      clear - Y. inv_split Y. unfold inv, everything, sect in *. rt_cbn. rt_cbn_in HSi. splits; auto.
Qed.

Lemma deleted_all : forall small sites b, buf_ok small sites b -> c_pc (r_c (b_ring b)) = CDeleted ->
  b_taken b = length (b_msgs b) /\ p_pc (r_p (b_ring b)) = PExit.
Proof.
  intros small sites b (A & B & C & D & E & F) HD. assert (NE := staged_nonempty _ _ _ C).
  destruct A as (H0 & f & HC & HV & HT & HP & HSI & HK). rewrite HD in HK. destruct HK as (K1 & K2).
  destruct (chain_dead _ _ _ _ _ _ _ HC K1) as (EB & EF). rewrite <- EF in HP.
  destruct HP as (P1 & P2 & P3 & P4 & P5). specialize (P4 K1). split; auto.
  unfold all_sent in *. rewrite P4 in *. cbn [unfinished] in *. rewrite app_nil_r in *.
  assert (length (b_msgs b) = length (r_sent (b_ring b))) by (clear - C; induction C; cbn; auto). rewrite H.
  apply Nat.le_antisymm; auto. apply (concat_mono (r_sent (b_ring b))); auto.
  rewrite firstn_all. rewrite <- D, K2. lia.
Qed.

Lemma delete_inv : forall small t b, inv small t -> nth_error (t_bufs t) (Z.to_nat (t_ki t)) = Some b ->
  c_pc (r_c (b_ring b)) = CDeleted -> inv small (k_delete t b).
Proof.
  intros small t b H HB HD. inv_split H.
  assert (HO : buf_ok small (t_sites t) b).
  { destruct HBu as (A & _). eapply Forall_forall in A; [exact A|]. eapply nth_error_In; eauto. }
  destruct (deleted_all _ _ _ HO HD) as (HT & _). assert (HP := remove_perm _ _ _ _ HB).
  set (bs := remove_at (Z.to_nat (t_ki t)) (t_bufs t)) in *.
  assert (X : inv small (set_bufs bs (set_gone (t_gone t ++ [b]) (set_kpc KNext t)))).
  { unfold inv, everything, sect in *. rt_cbn. splits; auto; try exact I.
    - destruct HBu as (A & B). split; [now apply Forall_remove|]. apply Forall_app. split; auto.
    - destruct HId as (I1 & I2 & I3 & I4). unfold inv_ids.
      assert (P : Permutation (map b_id (t_bufs t) ++ map b_id (t_gone t) ++ t_pend t)
        (map b_id bs ++ map b_id (t_gone t ++ [b]) ++ t_pend t)).
      { rewrite map_app. cbn [map]. rewrite <- app_assoc. cbn [app].
        eapply perm_trans; [apply Permutation_app_tail; apply Permutation_map; exact HP|]. cbn [map app].
        rewrite !app_assoc. apply Permutation_middle. }
      splits; try lia.
      + eapply Permutation_NoDup; eauto.
      + eapply Permutation_Forall; eauto.
      + apply Permutation_length in P. unfold zlen in *. lia.
    - destruct HAc as (A & B & C). unfold inv_acc. splits; auto.
      + now apply Forall_remove.
      + apply Forall_app. split; auto. constructor; [|constructor]. eapply Forall_forall in A; [|eapply nth_error_In; eauto].
        unfold acc_ok in A. split; auto. now rewrite A, HT, firstn_all. }
  unfold k_delete. fold bs. clear - X. destruct bs as [|b0 bs]; inv_split X; unfold inv, everything, sect in *; rt_cbn; rt_cbn_in HSi; splits; auto.
Qed.

Lemma nil_flight : forall small t, inv small t -> t_outst t = false \/ t_flight t = [] -> t_flight t = [] /\ t_gflight t = [].
Proof.
  intros small t H HO. inv_split H. destruct HFl as [HFl | (A & n & B & _)]; auto.
  destruct HO as [HO | HO]; rewrite HO in *; discriminate.
Qed.

Lemma finish_inv : forall small t, inv small t -> t_flight t = [] -> inv small (k_finish_io t).
Proof.
  intros small t H HF. destruct (nil_flight _ _ H (or_intror HF)) as (F1 & F2).
  assert (X : inv small (set_outst false (set_kpc KWrite t))).
  { inv_split H. unfold inv, everything, sect in *. rt_cbn. splits; auto; [left; auto|exact eq_refl]. }
  unfold k_finish_io. destruct (t_sync t); auto. apply notify_inv. clear - X. inv_split X. unfold inv, everything, sect in *. rt_cbn. splits; auto.
Qed.

Lemma write_inv : forall small t, inv small t -> t_kpc t = KWrite -> inv small (k_write t).
Proof.
  intros small t H HPC. pose proof H as H'. inv_split H'. rewrite HPC in HPc. cbn [inv_pc] in HPc.
  destruct (nil_flight _ _ H (or_introl HPc)) as (F1 & F2). unfold k_write. destruct (encoded t =? 0) eqn:E0.
  - apply inv_new_pc; auto. exact I.
  - cbn [swapBuffer]. destruct HEn as ((E1 & E2 & E3 & E4) & E5 & E6). unfold inv, everything, sect, encoded in *. rt_cbn. rewrite F1, F2 in *.
    cbn [app] in *. rewrite ?app_nil_r in *. splits; auto; try exact I.
    + unfold inv_enc, enc_ok. cbn [e_mem e_base e_wp e_hi e_end]. splits; auto; lia.
    + right. split; auto. exists (getEncodedBytes (t_en t)). split; [reflexivity|]. unfold getEncodedBytes in *.
      split; [lia|]. exact HGl.
    + unfold encoded_bytes, getEncodedBytes. cbn [e_mem e_base e_wp]. rewrite Z.sub_diag. apply wires_nil.
    + destruct HSu as (dn & S1 & S2). exists dn. split; auto. rewrite S2. cbn [map fst snd e_mem]. now rewrite ?app_nil_r.
Qed.

Lemma thread_inv : forall small t t', inv small t -> k_step t = Some t' -> inv small t'.
Proof.
  intros small t t' H E. unfold k_step in E. cbv zeta in E. destruct (t_kpc t) eqn:EP.
  - apply some_inj in E. subst t'. apply inv_new_pc; auto.
    destruct (negb (t_kexit t) || (0 <? encoded t) || t_outst t) eqn:EC; [exact I|].
    apply orb_false_iff in EC. destruct EC as (EC & E1). apply orb_false_iff in EC. destruct EC as (_ & E2).
    inv_split H. destruct HEn as ((_ & E3 & _) & _). cbn [inv_pc]. split; auto. unfold encoded, getEncodedBytes in *. lia.
  - apply some_inj in E. subst t'. now apply dict_inv.
  - destruct (t_kfull t); [apply some_inj in E; subst; apply inv_new_pc; auto; exact I|].
    destruct (t_bufs t) eqn:EB; [apply some_inj in E; subst; apply inv_new_pc; auto; exact I|].
    destruct (on_ring (Z.to_nat (t_ki t)) LPeek t) as [t1|] eqn:ER; [|discriminate]. apply some_inj in E. subst t'.
    apply inv_new_pc; [|exact I]. eapply on_ring_inv; eauto.
  - destruct (nth_error (t_bufs t) (Z.to_nat (t_ki t))) as [b|] eqn:EB; [|discriminate].
    assert (H0 : inv small (set_gseen (t_gseen t ++ [b_id b]) t)) by (clear - H; inv_split H; unfold inv, everything, sect in *; rt_cbn; splits; auto).
    destruct (c_pc (r_c (b_ring b))) eqn:EC; try discriminate; try (apply (on_ring_inv small t _ _ t' H E); auto;
      intros b0 Hb0; rewrite EB in Hb0; apply some_inj in Hb0; subst b0; unfold reads; now rewrite EC).
    destruct (0 <? n).
    + apply some_inj in E. subst t'. apply inv_new_pc; auto. exact I.
    + destruct (on_ring _ _ _) as [t1|] eqn:ER; [|discriminate]. apply some_inj in E. subst t'.
      apply inv_new_pc; [eapply on_ring_inv; eauto|]. now destruct (s_dead _).
  - destruct (nth_error (t_bufs t) (Z.to_nat (t_ki t))) as [b|] eqn:EB; [|discriminate].
    destruct (c_pc (r_c (b_ring b))) eqn:EC; try discriminate. destruct (n =? 0) eqn:EN.
    + apply some_inj in E. subst t'. apply inv_new_pc; auto. exact I.
    + eapply encode_inv; eauto. inv_split H. destruct HBu as (A & _). eapply Forall_forall in A; [|eapply nth_error_In; exact EB].
      destruct (handed_messages _ _ _ _ A EC) as (j & _ & X). cbv zeta in X. destruct X as (_ & X & _).
      pose proof (zlen_nonneg _ (concat (firstn (j - b_taken b) (skipn (b_taken b) (r_sent (b_ring b)))))). lia.
  - destruct (nth_error (t_bufs t) (Z.to_nat (t_ki t))) as [b|] eqn:EB; [|discriminate].
    destruct (c_pc (r_c (b_ring b))) eqn:EC; try discriminate.
    destruct (on_ring _ _ _) as [t1|] eqn:ER; [|discriminate].
    assert (H1 : inv small t1).
    { apply (on_ring_inv small t _ _ t1 H ER); auto. intros b0 Hb0. rewrite EB in Hb0. apply some_inj in Hb0. subst b0. unfold reads. now rewrite EC. }
    assert (EI : t_ki t1 = t_ki t).
    { unfold on_ring in ER. rewrite EB in ER. destruct (ring_step _ _ _); [|discriminate]. apply some_inj in ER. now subst. }
    destruct (nth_error (t_bufs t1) (Z.to_nat (t_ki t))) as [b'|] eqn:EB'; [|discriminate].
    destruct (c_pc (r_c (b_ring b'))) eqn:EC'; apply some_inj in E; subst t'; try (apply inv_new_pc; auto; exact I).
    apply delete_inv; auto. now rewrite EI.
  - apply some_inj in E. subst t'. unfold k_next. cbv zeta. clear EP.
    inv_split H. unfold inv, everything, sect in *. rt_cbn. splits; auto. now destruct (_ =? t_klast t).
  - apply some_inj in E. subst t'. unfold k_idle.
    assert (X : forall s pc, pc <> KWrite -> pc <> KExit -> inv small (set_sync s (set_kpc pc t))).
    { intros s pc P1 P2. inv_split H. unfold inv, everything, sect in *. rt_cbn. splits; auto. destruct pc; try exact I; congruence. }
    assert (Y : inv small (set_kpc KIo t)) by (apply inv_new_pc; auto; exact I).
    destruct (encoded t =? 0); auto. destruct (t_sync t); [apply X; discriminate| |exact Y|now apply notify_inv].
    destruct (t_outst t); [apply X; discriminate|]. apply notify_inv. apply X; discriminate.
  - unfold k_io in E. destruct (t_outst t) eqn:EO.
    + destruct (t_flight t) eqn:EF.
      * apply some_inj in E. subst t'. now apply finish_inv.
      * destruct (t_kfull t); [discriminate|]. apply some_inj in E. subst t'. apply inv_new_pc; auto. exact I.
    + apply some_inj in E. subst t'. apply inv_new_pc; auto.
  - apply some_inj in E. subst t'. now apply write_inv.
  - discriminate.
Qed.

Lemma io_inv : forall small t k t', inv small t -> rt_step (RIoDone k) t = Some t' -> inv small t'.
Proof.
  intros small t k t' H E. cbn [rt_step] in E. destruct (nth_error (t_flight t) k) as [[base n]|] eqn:EK; [|discriminate].
  apply some_inj in E. subst t'. inv_split H. destruct HFl as [(F1 & F2) | (F0 & m & F1 & F2 & F3)].
  - rewrite F1 in EK. destruct k; discriminate.
  - rewrite F1 in *. destruct k as [|[|k]]; try discriminate EK. cbn [nth_error] in EK. apply some_inj in EK.
    assert (base = t_other t) by congruence. assert (n = m) by congruence. subst base n.
    unfold inv, everything, sect in *. rt_cbn. change (remove_at 0 [(t_other t, m)]) with (@nil (Z * Z)).
    cbn [app]. rewrite !app_assoc in *. splits; auto.
    + left. auto.
    + now apply wires_app.
    + destruct HSu as (dn & S1 & S2). exists (dn ++ [load (e_mem (t_en t)) (t_other t) (Z.to_nat m)]). rewrite concat_app, S1, S2.
      cbn [map fst snd concat]. rewrite !app_nil_r. auto.
Qed.

Lemma wires_empty : forall small sites gs, wires small sites gs [] -> gs = [].
Proof.
  intros small sites gs (bss & A & B). destruct A as [|g b gs bss W _]; auto. exfalso. cbn [concat] in B.
  symmetry in B. apply app_eq_nil in B. destruct B as (-> & _). destruct g as [r u c|total ss|tid np xs]; cbn [wire] in W.
  - destruct W as (_ & junk & _ & W). apply (f_equal (@length _)) in W. unfold checkpoint_bytes in W. rewrite !app_length in W. cbn in W. lia.
  - destruct W as (W & _). pose proof (dict_bytes_zlen total ss) as X. rewrite <- W in X. pose proof (zlen_nonneg _ (concat (map dict_entry ss))). rewrite zlen_nil in X. lia.
  - destruct W as (_ & _ & ws & _ & W & _). pose proof (extent_zlen tid np ws) as X. rewrite <- W in X. rewrite zlen_nil in X. lia.
Qed.

Lemma encoder_inv : forall osize m base other r u c e, 0 <= osize < 2 ^ 30 -> mem_bytes m -> times_ok r u c ->
  base + osize <= other \/ other + osize <= base ->
  encoder m base osize false r u c = Some e ->
  inv_enc osize e other /\ forall small sites, wires small sites [GCheckpoint r u c] (encoded_bytes e).
Proof.
  intros osize m base other r u c e HO Hm HT HD E. destruct HT as (T1 & T2 & T3 & T4). unfold encoder in E.
  apply checkpoint_spec in E; auto; cbn [e_mem e_base e_wp e_hi e_end] in *; [|lia].
  destruct E as (_ & junk & J & X). cbv zeta in X. destruct X as (X1 & X2 & X3 & X4 & X5 & X6 & X7 & X8 & X9).
  split.
  - unfold inv_enc, enc_ok. rewrite X4, X5. splits; auto; lia.
  - intros small sites. apply wires_one. cbn [wire]. split; [red; auto|]. exists junk. split; auto.
    unfold encoded_bytes, getEncodedBytes. rewrite X4. etransitivity; [|exact X1]. f_equal. unfold zlen in *. lia.
Qed.

Lemma restart_inv : forall small t r u c t', inv small t -> times_ok r u c -> rt_step (RRestart r u c) t = Some t' -> inv small t'.
Proof.
  intros small t r u c t' H HT E. cbn [rt_step] in E. destruct (t_sw t); try discriminate. destruct (t_kpc t) eqn:EP; try discriminate.
  destruct (encoder _ _ _ _ _ _ _) as [e|] eqn:EE; [|discriminate]. apply some_inj in E. subst t'. pose proof H as H'. inv_split H.
  rewrite EP in HPc. destruct HPc as (P1 & P2). destruct (nil_flight _ _ H' (or_introl P1)) as (F1 & F2).
  assert (F3 : t_glog t = []).
  { eapply wires_empty. unfold encoded_bytes in HGl. rewrite P2 in HGl. exact HGl. }
  apply (encoder_inv _ _ _ (t_other t)) in EE; auto; [|destruct HEn as ((_ & ? & ? & ?) & ? & _); lia|exact (proj1 (proj1 HEn))|exact (proj2 (proj2 HEn))].
  destruct EE as (E1 & E2). unfold everything, sect in *. rewrite F1, F2, F3 in *. cbn [app] in *. rewrite app_nil_r in *.
  destruct HKn as (K1 & K2 & _). unfold inv, everything, sect. rt_cbn. splits; auto; try exact I.
  - rewrite concat_app. cbn [concat app]. rewrite app_nil_r. destruct HAc as (A & B & C). unfold inv_acc. splits.
    + eapply Forall_impl; [|exact A]. intros b Hb. unfold acc_ok in *. rewrite emitted_app, Hb. cbn. now rewrite app_nil_r.
    + eapply Forall_impl; [|exact B]. intros b (Hb & Hb'). unfold gone_ok in *. rewrite emitted_app, Hb. cbn. now rewrite app_nil_r.
    + intros id Hi. rewrite emitted_app, C by auto. reflexivity.
  - left. auto.
  - apply wires_nil.
  - unfold inv_known. cbn [gok gknown app]. pose proof (zlen_nonneg _ (t_sites t)). splits; auto; try lia. red. eauto.
  - unfold inv_olds in *. apply Forall2_app; [exact HOl|]. constructor; [auto|constructor].
  - rewrite F1. exists []. split; reflexivity.
Qed.

Theorem step_inv_rt : forall small l t t', inv small t -> legal small l t -> rt_step l t = Some t' -> inv small t'.
Proof.
  intros small l t t' H HL E. destruct l; cbn [legal] in HL; cbn [rt_step] in E.
  - apply some_inj in E. subst t'. now apply register_inv.
  - apply some_inj in E. subst t'. now apply alloc_inv.
  - eapply push_inv; eauto.
  - eapply log_inv_rt; eauto.
  - eapply on_ring_inv; eauto.
  - eapply on_ring_inv; eauto.
  - eapply on_ring_inv; eauto.
  - eapply on_ring_inv; eauto.
  - eapply thread_inv; eauto.
  - eapply io_inv; eauto.
  - destruct HL.
  - destruct (snap_ok t snap); [|discriminate]. apply some_inj in E. subst t'. inv_split H. unfold inv, everything, sect in *. rt_cbn. splits; auto.
  - destruct (t_waiters t); [discriminate|]. apply some_inj in E. subst t'. inv_split H. unfold inv, everything, sect in *. rt_cbn. splits; auto.
  - destruct (t_waiters t); [discriminate|]. apply some_inj in E. subst t'. now apply notify_inv.
  - destruct (t_sw t); try discriminate. destruct (snap_ok t snap); [|discriminate]. apply some_inj in E. subst t'.
    inv_split H. unfold inv, everything, sect in *. rt_cbn. splits; auto.
  - destruct (t_sw t); try discriminate. apply some_inj in E. subst t'. inv_split H. unfold inv, everything, sect in *. rt_cbn. splits; auto.
  - eapply restart_inv; eauto.
  - destruct (t_kpc t) eqn:EP; try discriminate. apply some_inj in E. subst t'. unfold k_stale. clear EP.
    inv_split H. unfold inv, everything, sect in *. rt_cbn. splits; auto.
Qed.

Lemma init_inv : forall small m size b1 b2 r u c t, 0 <= size < 2 ^ 30 -> mem_bytes m -> times_ok r u c ->
  b1 + size <= b2 \/ b2 + size <= b1 -> rt_init m size b1 b2 r u c = Some t -> inv small t.
Proof.
  intros small m size b1 b2 r u c t HO Hm HT HD E. unfold rt_init in E. destruct (encoder _ _ _ _ _ _ _) as [e|] eqn:EE; [|discriminate].
  apply some_inj in E. subst t. apply (encoder_inv _ _ _ b2) in EE; auto. destruct EE as (E1 & E2).
  unfold inv, everything, sect. rt_cbn. cbn [app concat]. splits; auto; try exact I.
  - split; [constructor|]. rewrite zlen_nil. lia.
  - split; constructor.
  - unfold inv_ids. cbn. splits; try constructor; lia.
  - unfold inv_acc. splits; try constructor.
  - left. auto.
  - apply wires_nil.
  - unfold inv_known. cbn [gok gknown]. rewrite zlen_nil. splits; auto; try lia. red. eauto.
  - constructor.
  - exists []. split; reflexivity.
Qed.
