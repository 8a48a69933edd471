(** What a LogMessage contains. *)
From Verif Require Import Base BaseProofs Packer Chars Fmt Args Printf DecodeProofs LogMsg.

Definition most_args : Z := 10 * 2 ^ 27.

Definition slot_holds (s : lmsg) (i : Z) (bs : list Z) : Prop :=
  if i <? initial_size then load (bk_mem (lm_raw s)) (8 * i) (length bs) = bs
  else exists e, lm_ext s = Some e /\ load (bk_mem e) (8 * (i - initial_size)) (length bs) = bs.

Record lm_ok (s : lmsg) (l : list (list Z)) : Prop := {
  ok_num : lm_num s = zlen l;
  ok_le : lm_num s <= lm_cap s;
  ok_cap : exists k, 0 <= k <= 27 /\ lm_cap s = 10 * 2 ^ k;
  ok_raw : bk_size (lm_raw s) = 80;
  ok_ext : match lm_ext s with
           | None => lm_cap s = 10 /\ lm_live s = 0
           | Some e => bk_size e = 8 * (lm_cap s - 10) /\ lm_live s = 1
           end;
  ok_holds : forall i bs, nth_error l i = Some bs -> slot_holds s (Z.of_nat i) bs
}.

Definition fits8 (bs : list Z) : Prop := (length bs <= 8)%nat.

Lemma in_block : forall a b c, 0 <= a -> a + b <= c -> (0 <=? a) && (a + b <=? c) = true.
Proof. intros. apply andb_true_iff. split; apply Z.leb_le; lia. Qed.

Lemma init_ok : lm_ok lm_init [].
Proof.
  constructor; try reflexivity.
  - cbv. discriminate.
  - exists 0. split; [lia|reflexivity].
  - split; reflexivity.
  - intros [|i] bs E; discriminate E.
Qed.

Lemma reset_ok : forall s l meta i t, lm_ok s l -> lm_ok (lm_reset s meta i t) [].
Proof.
  intros s l meta i t [A B C D E F]. destruct C as (k & K1 & K2).
  constructor; cbn [lm_reset lm_num lm_cap lm_raw lm_ext lm_live]; auto.
  - rewrite K2. pose proof (Z.pow_pos_nonneg 2 k ltac:(lia) ltac:(lia)). lia.
  - exists k. auto.
  - intros [|j] bs H; discriminate H.
Qed.

Lemma pow_grow : forall k, 0 <= k <= 26 -> 2 * (10 * 2 ^ k) = 10 * 2 ^ (k + 1) /\ 10 * 2 ^ (k + 1) < 2 ^ 31 /\ 1 <= 2 ^ k.
Proof.
  intros k K. rewrite Z.pow_add_r by lia. split; [lia|].
  assert (2 ^ k <= 2 ^ 26) by (apply Z.pow_le_mono_r; lia).
  pose proof (Z.pow_pos_nonneg 2 k ltac:(lia) ltac:(lia)).
  change (2 ^ 31) with 2147483648. change (2 ^ 26) with 67108864 in *. change (2 ^ 1) with 2. lia.
Qed.

Lemma load_store_keep : forall m a bs b n, b + Z.of_nat n <= a \/ a + zlen bs <= b ->
  load (store m a bs) b n = load m b n.
Proof. intros. apply load_ext. intros i Hi. apply store_outside. lia. Qed.

(** The slot of an argument already there, after memcpy. *)
Lemma copied : forall m junk n a k, 0 <= a -> a + Z.of_nat k <= Z.of_nat n ->
  load (store junk 0 (load m 0 n)) a k = load m a k.
Proof.
  intros m junk n a k Ha Hk. apply load_ext. intros i Hi.
  rewrite store_inside by (rewrite load_zlen; lia). rewrite Z.sub_0_r.
  rewrite load_nth by lia. f_equal. lia.
Qed.

Lemma reserve_ok : forall s l junk, lm_ok s l -> Forall fits8 l -> lm_num s = lm_cap s -> lm_num s < most_args ->
  exists s', lm_reserve s (lm_num s + 1) junk = Some s' /\ lm_ok s' l /\ lm_num s' < lm_cap s'
    /\ lm_meta s' = lm_meta s /\ lm_id s' = lm_id s /\ lm_rdtsc s' = lm_rdtsc s.
Proof.
  intros s l junk [A B C D E F] H8 HE HM. destruct C as (k & K1 & K2).
  assert (k <= 26).
  { destruct (Z.eq_dec k 27) as [->|]; [|lia]. unfold most_args in HM. lia. }
  destruct (pow_grow k ltac:(lia)) as (G1 & G2 & G3).
  unfold lm_reserve. replace (lm_num s + 1 <=? lm_cap s) with false by lia.
  assert (grow 32 (lm_cap s) (lm_num s + 1) = Some (10 * 2 ^ (k + 1))) as ->.
  { change 32%nat with (S 31). cbn [grow]. rewrite K2, G1 in *. replace (10 * 2 ^ k <? lm_num s + 1) with true by lia.
    replace (10 * 2 ^ (k + 1) <? 2 ^ 31) with true by lia.
    unfold grow. replace (10 * 2 ^ (k + 1) <? lm_num s + 1) with false by lia. reflexivity. }
  destruct (lm_ext s) as [old|] eqn:EE.
  - destruct E as [E1 E2]. unfold initial_size in *. replace (0 <=? lm_num s - 10) with true by lia.
    unfold bk_read. rewrite E1. rewrite in_block by lia.
    unfold bk_write. cbn [bk_size bk_mem]. rewrite load_zlen.
    rewrite in_block by lia.
    eexists. split; [reflexivity|]. cbn [lm_num lm_cap lm_meta lm_id lm_rdtsc].
    splits; try reflexivity; [|lia].
    constructor; cbn [lm_num lm_cap lm_raw lm_ext lm_live bk_size bk_mem]; auto; try lia.
    + exists (k + 1). split; [lia|reflexivity].
    + intros i bs Hi. specialize (F i bs Hi). unfold slot_holds, initial_size in *. cbn [lm_raw lm_ext].
      destruct (Z.of_nat i <? 10) eqn:I10; [exact F|].
      destruct F as (e & Ee & F). rewrite EE in Ee. assert (e = old) as -> by congruence.
      eexists. split; [reflexivity|]. cbn [bk_mem].
      assert (fits8 bs) as H8b by (rewrite Forall_forall in H8; apply H8; eapply nth_error_In; eauto).
      assert (i < length l)%nat by (apply nth_error_Some; congruence). unfold fits8, zlen in *.
      rewrite copied by lia. exact F.
  - destruct E as [E1 E2].
    eexists. split; [reflexivity|]. cbn [lm_num lm_cap lm_meta lm_id lm_rdtsc].
    splits; try reflexivity; [|lia].
    constructor; cbn [lm_num lm_cap lm_raw lm_ext lm_live bk_size bk_mem]; auto; try lia.
    + exists (k + 1). split; [lia|reflexivity].
    + unfold initial_size. split; [reflexivity|lia].
    + intros i bs Hi. specialize (F i bs Hi). unfold slot_holds, initial_size in *. cbn [lm_raw lm_ext].
      destruct (Z.of_nat i <? 10) eqn:I10; [exact F|].
      destruct F as (e & Ee & F). congruence.
Qed.

Lemma push_ok : forall s l bs junk, lm_ok s l -> Forall fits8 l -> fits8 bs -> lm_num s < most_args ->
  exists s', lm_push s bs junk = Some s' /\ lm_ok s' (l ++ [bs])
    /\ lm_meta s' = lm_meta s /\ lm_id s' = lm_id s /\ lm_rdtsc s' = lm_rdtsc s.
Proof.
  intros s l bs junk HO H8 Hb HM. unfold lm_push.
  assert (exists s1, (if lm_num s =? lm_cap s then lm_reserve s (lm_num s + 1) junk else Some s) = Some s1
    /\ lm_ok s1 l /\ lm_num s1 < lm_cap s1 /\ lm_meta s1 = lm_meta s /\ lm_id s1 = lm_id s /\ lm_rdtsc s1 = lm_rdtsc s)
    as (s1 & -> & HO1 & LT & M1 & M2 & M3).
  { destruct (lm_num s =? lm_cap s) eqn:Q.
    - apply reserve_ok; auto. lia.
    - exists s. splits; auto. destruct HO. lia. }
  destruct HO1 as [A B C D E F]. rewrite <- M1, <- M2, <- M3. clear s HO HM M1 M2 M3.
  pose proof (zlen_nonneg _ l). unfold fits8 in Hb. unfold initial_size.
  assert (NE : forall i b, nth_error (l ++ [bs]) i = Some b ->
     nth_error l i = Some b /\ (i < length l)%nat \/ i = length l /\ b = bs).
  { intros i b Hi. destruct (Nat.lt_ge_cases i (length l)) as [L|L].
    - left. rewrite nth_error_app1 in Hi by lia. auto.
    - right. rewrite nth_error_app2 in Hi by lia.
      destruct (i - length l)%nat as [|j] eqn:J; cbn in Hi.
      + split; [lia|congruence].
      + destruct j; discriminate Hi. }
  destruct (lm_num s1 <? 10) eqn:Q.
  - unfold bk_write. rewrite D. unfold zlen in *.
    rewrite in_block by lia.
    eexists. split; [reflexivity|]. cbn [lm_meta lm_id lm_rdtsc]. splits; auto.
    constructor; cbn [lm_num lm_cap lm_raw lm_ext lm_live bk_size bk_mem]; auto; try lia.
    + unfold zlen. rewrite app_length. cbn [length]. lia.
    + intros i b Hi. unfold slot_holds, initial_size. cbn [lm_raw lm_ext bk_mem].
      destruct (NE i b Hi) as [[Hi' L]|[-> ->]].
      * specialize (F i b Hi'). unfold slot_holds, initial_size in F.
        assert (fits8 b) as H8b by (rewrite Forall_forall in H8; apply H8; eapply nth_error_In; eauto).
        unfold fits8 in H8b. replace (Z.of_nat i <? 10) with true in * by lia.
        rewrite load_store_keep by lia. exact F.
      * replace (Z.of_nat (length l) <? 10) with true by lia. rewrite A. apply load_store_same.
  - destruct (lm_ext s1) as [e|] eqn:EE; [|lia]. destruct E as [E1 E2].
    unfold bk_write. rewrite E1. unfold zlen in *.
    rewrite in_block by lia.
    eexists. split; [reflexivity|]. cbn [lm_meta lm_id lm_rdtsc]. splits; auto.
    constructor; cbn [lm_num lm_cap lm_raw lm_ext lm_live bk_size bk_mem]; auto; try lia.
    + unfold zlen. rewrite app_length. cbn [length]. lia.
    + intros i b Hi. unfold slot_holds, initial_size. cbn [lm_raw lm_ext bk_mem].
      destruct (NE i b Hi) as [[Hi' L]|[-> ->]].
      * specialize (F i b Hi'). unfold slot_holds, initial_size in F.
        assert (fits8 b) as H8b by (rewrite Forall_forall in H8; apply H8; eapply nth_error_In; eauto).
        unfold fits8 in H8b. destruct (Z.of_nat i <? 10) eqn:I10; [exact F|].
        destruct F as (e' & Ee & F). assert (e' = e) as -> by congruence.
        eexists. split; [reflexivity|]. cbn [bk_mem]. rewrite load_store_keep by (unfold zlen; lia). exact F.
      * replace (Z.of_nat (length l) <? 10) with false by lia. eexists. split; [reflexivity|].
        cbn [bk_mem]. rewrite A. apply load_store_same.
Qed.

Lemma get_ok : forall s l i bs, lm_ok s l -> Forall fits8 l -> nth_error l i = Some bs ->
  lm_get s (Z.of_nat i) (length bs) = Some bs.
Proof.
  intros s l i bs [A B C D E F] H8 Hi. specialize (F i bs Hi). unfold slot_holds, initial_size in F.
  assert (fits8 bs) as H8b by (rewrite Forall_forall in H8; apply H8; eapply nth_error_In; eauto).
  assert (i < length l)%nat by (apply nth_error_Some; congruence). unfold fits8, zlen in *.
  unfold lm_get, initial_size. replace (Z.of_nat i <? lm_cap s) with true by lia.
  destruct (Z.of_nat i <? 10) eqn:I10.
  - unfold bk_read. rewrite D. rewrite in_block by lia.
    now rewrite F.
  - destruct F as (e & Ee & F). rewrite Ee in *. destruct E as [E1 E2]. unfold bk_read. rewrite E1.
    rewrite in_block by lia.
    now rewrite F.
Qed.
