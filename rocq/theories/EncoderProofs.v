(** Lemmas about [Encoder]: what it writes, and where. *)
From Verif Require Import Base BaseProofs Packer PackerProofs LogHeader LogHeaderProofs FrontFmt Args ArgsProofs
  DecodeProofs Encoder Wire.

(** Memory of bytes. *)
Definition mem_bytes (m : mem) : Prop := forall x, is_byte (m x).

Lemma store_bytes : forall m p bs, mem_bytes m -> Forall is_byte bs -> mem_bytes (store m p bs).
Proof.
  intros m p bs Hm Hb x. unfold store. destruct (_ && _) eqn:E; [|apply Hm].
  apply andb_prop in E. destruct E. pose proof (zlen_nonneg _ bs). unfold zlen in *.
  rewrite Forall_forall in Hb. apply Hb. apply nth_In. lia.
Qed.

Lemma bf_set_byte : forall b off w v, is_byte b -> 0 <= off -> 0 <= w -> off + w <= 8 -> is_byte (bf_set b off w v).
Proof.
  intros b off w v Hb Ho Hw Hs. unfold is_byte, bf_set, bf_get in *.
  assert (P : 2 ^ off * 2 ^ w * 2 ^ (8 - off - w) = 256).
  { rewrite <- !Z.pow_add_r by lia. replace (off + w + (8 - off - w)) with 8 by lia. reflexivity. }
  pose proof (Z.pow_pos_nonneg 2 off ltac:(lia) Ho). pose proof (Z.pow_pos_nonneg 2 w ltac:(lia) Hw).
  pose proof (Z.pow_pos_nonneg 2 (8 - off - w) ltac:(lia) ltac:(lia)).
  set (A := 2 ^ off) in *. set (W := 2 ^ w) in *. set (R := 2 ^ (8 - off - w)) in *.
  pose proof (Z.mod_pos_bound v W ltac:(lia)).
  pose proof (Z.div_mod b A ltac:(lia)). pose proof (Z.mod_pos_bound b A ltac:(lia)).
  pose proof (Z.div_mod (b / A) W ltac:(lia)). pose proof (Z.mod_pos_bound (b / A) W ltac:(lia)).
  assert (0 <= b / A) by (apply Z.div_pos; lia). assert (0 <= b / A / W) by (apply Z.div_pos; lia).
  assert (P' : A * (W * R) = 256) by (rewrite <- P; ring).
  assert (b / A / W < R).
  { apply Z.div_lt_upper_bound; [lia|]. apply Z.div_lt_upper_bound; [lia|]. rewrite P'. lia. }
  set (u := v mod W) in *. set (l := (b / A) mod W) in *. set (h := b / A / W) in *. set (q := b / A) in *.
  set (r := b mod A) in *. clearbody A W R u l h q r. clear Ho Hw Hs.
  assert (E : b + (u - l) * A = r + A * (u + W * h)) by (subst b q; ring). rewrite E.
  assert (W * h <= W * (R - 1)) by (apply Z.mul_le_mono_nonneg_l; lia).
  assert (0 <= W * h) by (apply Z.mul_nonneg_nonneg; lia).
  assert (A * (u + W * h) <= A * (W * R - 1)) by (apply Z.mul_le_mono_nonneg_l; lia).
  assert (0 <= A * (u + W * h)) by (apply Z.mul_nonneg_nonneg; lia). lia.
Qed.

Lemma bf_store_bytes : forall m p off w v, mem_bytes m -> 0 <= off -> 0 <= w -> off + w <= 8 ->
  mem_bytes (bf_store m p off w v).
Proof. intros. apply store_bytes; auto. constructor; [apply bf_set_byte; auto|constructor]. Qed.

Lemma load_bytes : forall n m p, mem_bytes m -> Forall is_byte (load m p n).
Proof. induction n; intros; cbn [load]; constructor; auto. Qed.

Definition pval_bytes (x : pval) : Prop := match x with PFlt bs => Forall is_byte bs | _ => True end.

Lemma pack_bytes : forall m p x, mem_bytes m -> pval_bytes x -> mem_bytes (pk_mem (pack m p x)).
Proof.
  intros m p x Hm Hx. destruct x as [n v|v|v|v|bs]; cbn [pack pval_bytes] in *.
  all: unfold pack_s32, pack_s64, pack_ptr, pack_unsigned, pack_float, add_code;
    repeat match goal with |- context [if ?b then _ else _] => destruct b end;
    cbn [pk_mem]; apply store_bytes; auto using le_bytes_is_byte.
Qed.

Lemma write_nibble_bytes : forall m a k c, mem_bytes m -> mem_bytes (write_nibble m a k c).
Proof.
  intros m a k c Hm. unfold write_nibble. cbv zeta.
  pose proof (Hm (a + k / 2)) as Hb. unfold is_byte in Hb.
  destruct (Z.odd k); apply store_bytes; auto; (constructor; [|constructor]);
    unfold is_byte, set_first, set_second; lia.
Qed.

Lemma compressLogHeader_bytes : forall m p id ts last, mem_bytes m ->
  mem_bytes (lh_mem (compressLogHeader m p id ts last)).
Proof.
  intros. unfold compressLogHeader. cbv zeta. cbn [lh_mem].
  repeat first [apply bf_store_bytes | apply pack_bytes]; auto; try lia; exact I.
Qed.

Lemma compress_pass_bytes : forall ts nib pts so min s, mem_bytes min -> mem_bytes (cs_mem s) ->
  mem_bytes (cs_mem (compress_pass ts nib pts so min s)).
Proof.
  induction ts as [|t ts IH]; intros nib pts so min s Hi Hm; [exact Hm|].
  destruct pts as [|p ps]; [exact Hm|]. cbn [compress_pass]. apply IH; auto.
  unfold compressSingle. cbv zeta. destruct (PT_NON_STRING <? p).
  - destruct so; cbn [negb cs_mem]; auto.
    apply store_bytes; [apply store_bytes; auto using load_bytes|].
    apply Forall_forall. intros x Hx. apply repeat_spec in Hx. subst. unfold is_byte. lia.
  - destruct so; cbn [cs_mem]; auto.
    apply write_nibble_bytes. apply pack_bytes; auto.
    destruct t; cbn [read_val pval_bytes]; auto using load_bytes.
    unfold pval_of_int. repeat match goal with |- context [if ?b then _ else _] => destruct b end; exact I.
Qed.

Lemma compress_bytes : forall ts n pts min inp m o, mem_bytes min -> mem_bytes m ->
  mem_bytes (cs_mem (compress ts n pts min inp m o)).
Proof. intros. unfold compress. cbv zeta. apply compress_pass_bytes; auto. cbn [cs_mem]. apply compress_pass_bytes; auto. Qed.

Lemma small_signed : forall t v,
  (it_bytes t = 1 \/ it_bytes t = 2 \/ it_bytes t = 4 \/ it_bytes t = 8)%nat -> in_range t v ->
  Z.of_nat (length (pbytes (pval_of_int t v))) <= Z.of_nat (it_bytes t) /\ True.
Proof.
  intros [sg k] v Hk Hr. cbn [it_bytes] in *. split; [|exact I].
  assert (E : forall z, Z.of_nat (length (pbytes z)) = zlen (pbytes z)) by reflexivity. rewrite E.
  assert (W : wf_pval (pval_of_int (Ity sg k) v)).
  { apply (pval_of_wf (AInt (Ity sg k) v)). split; auto. }
  destruct (pack_spec (fun _ => 0) 0 _ W) as (_ & _ & _ & _ & L & _).
  unfold pval_of_int in *. cbn [it_signed it_bytes] in *.
  destruct sg; [|cbn [psize] in *; lia].
  destruct Hk as [->|[->|[->| ->]]]; cbn [Nat.eqb] in *; cbn [psize] in L; try lia.
  - cbn [pbytes]. unfold in_range in Hr. cbn in Hr.
    destruct (_ || _) eqn:B; rewrite ubytes_zlen.
    + apply num_bytes_le; try lia.
      all: apply orb_prop in B; destruct B as [B|B]; try lia; rewrite Z.mod_small by lia; lia.
    + apply num_bytes_le; lia.
  - cbn [pbytes]. unfold in_range in Hr. cbn in Hr.
    destruct (_ || _) eqn:B; rewrite ubytes_zlen.
    + apply num_bytes_le; try lia.
      all: apply orb_prop in B; destruct B as [B|B]; try lia; rewrite Z.mod_small by lia; lia.
    + apply num_bytes_le; lia.
Qed.

(** Compressed arguments take no more bytes than the staged ones, plus a nibble
    each. *)
Lemma body_size : forall ts ns args, sizes_ok ts ns args -> strings_ok ts args -> Forall wf_arg args ->
  zlen (pvals ts args) <= zlen (imgs ts ns args) /\
  zlen (pvalues (pvals ts args)) + zlen (strs ts ns args) <= zlen (imgs ts ns args).
Proof.
  induction ts as [|t ts IH]; intros ns args Hs Hg Hw.
  { cbn [pvals imgs strs]. unfold pvalues; cbn [map concat]. rewrite !zlen_nil. lia. }
  destruct ns as [|n ns]; [destruct Hs|]. destruct args as [|a r]; [destruct Hs|].
  destruct Hs as [Hn Hs]. destruct Hg as [Ha Hg]. inversion Hw; subst.
  destruct (IH ns r Hs Hg H2) as [I1 I2].
  cbn [pvals imgs strs]. unfold img, is_strp in *. replace (t <=? PT_NON_STRING) with (negb (PT_NON_STRING <? t))
    by (rewrite Z.leb_antisym; reflexivity). rewrite negb_involutive. destruct (PT_NON_STRING <? t); rewrite ?andb_true_r, ?andb_false_r.
  - destruct (Hn eq_refl) as [N1 N2]. specialize (Ha eq_refl).
    rewrite Ha. unfold str_out. rewrite !zlen_app, le_bytes_zlen.
    assert (zlen (repeat 0 (Z.to_nat (characterWidth (aty_of a)))) <= 4).
    { unfold zlen. rewrite repeat_length. destruct a; try discriminate Ha; cbn [aty_of characterWidth]; lia. }
    pose proof (zlen_nonneg _ (firstn (Z.to_nat n) (string_bytes a))). lia.
  - unfold pvalues in *. cbn [map concat]. rewrite !zlen_app, zlen_cons, obj_bytes_zlen.
    pose proof (pval_of_wf a H1) as Wa.
    destruct (pack_spec (fun _ => 0) 0 _ Wa) as (_ & _ & _ & _ & L & _).
    assert (zlen (pbytes (pval_of a)) <= sizeof (aty_of a)).
    { destruct a as [ti v|bs|q b|q b|q|el q b]; cbn [pval_of aty_of sizeof psize] in *; unfold zlen in *; try lia.
      destruct H1 as [Hi Hr]. destruct ti as [sg k]. cbn [it_bytes] in *.
      unfold pval_of_int in *. cbn [it_signed it_bytes] in *. destruct sg; [|cbn [psize] in *; lia].
      destruct (small_signed (Ity true k) v Hi Hr) as [K _]. exact K. }
    lia.
Qed.

Lemma load_bmem : forall l k n, (k + n <= length l)%nat -> load (bmem l) (Z.of_nat k) n = firstn n (skipn k l).
Proof.
  intros l k n. revert k. induction n as [|n IH]; intros k H; [reflexivity|].
  cbn [load]. replace (Z.of_nat k + 1) with (Z.of_nat (S k)) by lia. rewrite IH by lia.
  unfold bmem. rewrite Nat2Z.id.
  assert (E : skipn k l = nth k l 0 :: skipn (S k) l).
  { clear IH. revert k H. induction l as [|x l IHl]; intros k H; [cbn in H; lia|].
    destruct k; [reflexivity|]. cbn [skipn nth]. rewrite IHl by (cbn in H; lia). reflexivity. }
  rewrite E. reflexivity.
Qed.

Lemma load_moved : forall l m o, load m o (length l) = l -> moved (bmem l) 0 m o (zlen l).
Proof.
  intros l m o H i Hi. rewrite Z.add_0_l. unfold bmem. rewrite <- H at 1.
  rewrite load_nth by (unfold zlen in Hi; lia). f_equal. lia.
Qed.

Lemma moved_bmem : forall m o n, moved m o (bmem (load m o n)) 0 (Z.of_nat n).
Proof.
  intros m o n i Hi. rewrite Z.add_0_l. unfold bmem. rewrite load_nth by lia. f_equal. lia.
Qed.

Lemma body_of_block : forall m o xs ss, mem_bytes m -> block_at m o xs ->
  let k := (zlen xs + 1) / 2 + zlen (pvalues xs) in
  load m (o + k) (length ss) = ss -> is_body xs ss (load m o (Z.to_nat (k + zlen ss))).
Proof.
  intros m o xs ss Hm HB k HS.
  pose proof (zlen_nonneg _ xs). pose proof (zlen_nonneg _ (pvalues xs)). pose proof (zlen_nonneg _ ss).
  assert (0 <= k) by (subst k; lia).
  unfold is_body. fold k. split; [rewrite load_zlen; lia|]. split; [apply load_bytes; auto|]. split.
  - apply (block_moved xs m o _ 0 (k + zlen ss)); auto; [|subst k; lia].
    rewrite <- (Z2Nat.id (k + zlen ss)) at 2 by lia. apply moved_bmem.
  - rewrite <- HS at 2. replace (Z.to_nat (k + zlen ss)) with (Z.to_nat k + length ss)%nat by (unfold zlen; lia).
    rewrite load_app. rewrite skipn_app, load_length, Nat.sub_diag, skipn_all2 by (rewrite load_length; lia).
    cbn [app skipn]. f_equal. lia.
Qed.

(** A body found in memory again. *)
Lemma body_at : forall xs ss body m o, is_body xs ss body -> load m o (length body) = body ->
  block_at m o xs /\ load m (o + ((zlen xs + 1) / 2 + zlen (pvalues xs))) (length ss) = ss.
Proof.
  intros xs ss body m o (L & _ & B & S) H.
  pose proof (zlen_nonneg _ xs). pose proof (zlen_nonneg _ (pvalues xs)). pose proof (zlen_nonneg _ ss).
  set (k := (zlen xs + 1) / 2 + zlen (pvalues xs)) in *.
  split.
  - apply (block_moved xs (bmem body) 0 m o (zlen body)); auto; [now apply load_moved|]. subst k; lia.
  - rewrite (moved_load _ _ _ _ _ _ _ (load_moved _ _ _ H)) by (unfold zlen in *; subst k; lia).
    rewrite Z.add_0_l. rewrite <- (Z2Nat.id k) by (subst k; lia). rewrite load_bmem by (unfold zlen in *; subst k; lia).
    rewrite S. apply firstn_all.
Qed.

(** Staged messages as encodeLogMsgs sees them. *)
Definition staged_all (sites : list site) (ms : list smsg) (bs : list (list Z)) : Prop :=
  Forall2 (fun x b => exists s, nth_error sites (Z.to_nat (sm_id x)) = Some s /\ staged_ok s x /\ b = staged_bytes s x) ms bs.

Lemma staged_zlen : forall s x, zlen (staged_bytes s x) = 16 + zlen (imgs (si_params s) (sm_ns x) (sm_args x)).
Proof. intros. unfold staged_bytes. rewrite !zlen_app, !le_bytes_zlen. lia. Qed.

Lemma staged_read : forall s x min from, staged_ok s x ->
  load min from (length (staged_bytes s x)) = staged_bytes s x ->
  ue_fmtId min from = sm_id x /\ ue_entrySize min from = zlen (staged_bytes s x) /\ ue_timestamp min from = sm_ts x /\
  load min (from + 16) (length (imgs (si_params s) (sm_ns x) (sm_args x))) = imgs (si_params s) (sm_ns x) (sm_args x).
Proof.
  intros s x min from (Hi & Ht & _ & _ & _ & _ & _ & Hz) H.
  pose proof (staged_zlen s x) as Z1. unfold staged_bytes in H.
  set (im := imgs (si_params s) (sm_ns x) (sm_args x)) in *. pose proof (zlen_nonneg _ im).
  apply load_split in H. destruct H as [H1 H].
  apply load_split in H. destruct H as [H2 H].
  apply load_split in H. destruct H as [H3 H].
  repeat rewrite le_bytes_length in *. repeat rewrite le_bytes_zlen in *. change (Z.of_nat 4) with 4 in *. change (Z.of_nat 8) with 8 in *.
  unfold ue_fmtId, ue_entrySize, ue_timestamp. rewrite H1, H2.
  replace (from + 8) with (from + 4 + 4) by lia. rewrite H3.
  rewrite !le_val_le_bytes. change (256 ^ Z.of_nat 4) with (2 ^ 32). change (256 ^ Z.of_nat 8) with (2 ^ 64).
  rewrite !Z.mod_small by lia. splits; try lia.
  replace (from + 16) with (from + 4 + 4 + 8) by lia. exact H.
Qed.

(** One message compressed: what it leaves behind. *)
Lemma encode_one : forall s x min from m p last h c, staged_ok s x -> mem_bytes min -> mem_bytes m ->
  load min from (length (staged_bytes s x)) = staged_bytes s x ->
  h = compressLogHeader m p (sm_id x) (sm_ts x) last ->
  c = compress (si_types s) (si_nibbles s) (si_params s) min (from + 16) (lh_mem h) (lh_pos h) ->
  exists w, compressed s x w /\
    load (cs_mem c) p (length (wmsg_bytes last w)) = wmsg_bytes last w /\
    cs_out c = p + zlen (wmsg_bytes last w) /\
    (forall y, y < p \/ (lh_touched h <= y /\ cs_hi c <= y /\ cs_out c <= y) -> cs_mem c y = m y) /\
    mem_bytes (cs_mem c) /\
    p <= lh_touched h <= p + 2 * zlen (staged_bytes s x) + 16 /\
    p <= cs_hi c <= p + 2 * zlen (staged_bytes s x) + 16 /\
    2 * zlen (wmsg_bytes last w) <= 3 * zlen (staged_bytes s x).
Proof.
  intros s x min from m p last h c Hok Hmin Hm HL Eh Ec.
  destruct (staged_read s x min from Hok HL) as (_ & _ & _ & LI).
  pose proof (staged_zlen s x) as SZ.
  destruct Hok as (Hi & Ht & Hty & Hw & Hsz & Hso & Hnib & Hz).
  rewrite <- Hty, Hnib in Ec. symmetry in Ec.
  destruct (compressLogHeader_spec m p (sm_id x) (sm_ts x) last Hi (Hm p)) as (A1 & A2 & _ & A4 & A5).
  rewrite <- Eh in *. cbv zeta in *.
  set (im := imgs (si_params s) (sm_ns x) (sm_args x)) in *.
  set (xs := pvals (si_params s) (sm_args x)) in *. set (ss := strs (si_params s) (sm_ns x) (sm_args x)) in *.
  destruct (compress_spec _ _ _ min (from + 16) (lh_mem h) (lh_pos h) c Hsz Hso Hw LI Ec) as (B & LS & CO & CI & CH & CU).
  fold xs ss in B, LS, CO. fold im in CI.
  assert (MB : mem_bytes (cs_mem c)).
  { rewrite <- Ec. apply compress_bytes; auto. rewrite Eh. apply compressLogHeader_bytes; auto. }
  destruct (body_size _ _ _ Hsz Hso Hw) as [S1 S2]. fold xs ss im in S1, S2.
  pose proof (zlen_nonneg _ xs). pose proof (zlen_nonneg _ (pvalues xs)). pose proof (zlen_nonneg _ ss). pose proof (zlen_nonneg _ im).
  pose proof (hbytes_zlen (sm_id x) (sm_ts x) last Hi) as HB.
  set (k := (zlen xs + 1) / 2 + zlen (pvalues xs)) in *.
  set (body := load (cs_mem c) (lh_pos h) (Z.to_nat (k + zlen ss))).
  assert (IB : is_body xs ss body). { apply body_of_block; auto. rewrite <- LS at 2. f_equal. lia. }
  exists (WMsg (sm_id x) (sm_ts x) body).
  assert (ZB : zlen body = k + zlen ss) by (apply IB).
  assert (ZW : zlen (wmsg_bytes last (WMsg (sm_id x) (sm_ts x) body)) = zlen (hbytes (sm_id x) (sm_ts x) last) + (k + zlen ss)).
  { unfold wmsg_bytes. cbn [w_id w_ts w_body]. rewrite zlen_app. lia. }
  split; [split; [reflexivity|split; [reflexivity|exact IB]]|]. split.
  { unfold wmsg_bytes. cbn [w_id w_ts w_body]. apply load_append.
    - rewrite <- A1 at 2. apply load_ext. intros y Hy. apply CU. unfold zlen in *. lia.
    - rewrite <- A2. subst body. rewrite load_length. reflexivity. }
  split; [lia|]. split.
  { intros y Hy. rewrite CU by lia. apply A5. lia. }
  split; [exact MB|]. assert (2 * k <= zlen xs + 1 + 2 * zlen (pvalues xs)) by (subst k; lia).
  split; [lia|]. split; lia.
Qed.

(** The messages of an extent, in order. *)
Fixpoint compressed_all (sites : list site) (ms : list smsg) (ws : list wmsg) : Prop :=
  match ms, ws with
  | [], [] => True
  | x :: ms', w :: ws' =>
      (exists s, nth_error sites (Z.to_nat (sm_id x)) = Some s /\ compressed s x w) /\ compressed_all sites ms' ws'
  | _, _ => False
  end.

(** Why the loop stopped in front of a message [x] of [size] bytes. *)
Definition stopped (known : Z -> bool) (size : Z) (x : smsg) (remaining space : Z) : Prop :=
  known (sm_id x) = false \/
  (remaining < size /\ size < STAGING_BUFFER_SIZE / 2) \/
  space < 2 * size + 16.

Lemma encode_loop_spec : forall sites (known : Z -> bool) cf ms bs fuel min from rem last e e' rem' k,
  (forall id, 0 <= id -> known id = true -> forall s, nth_error sites (Z.to_nat id) = Some s ->
     forall min inp mout o, cf id min inp mout o = compress (si_types s) (si_nibbles s) (si_params s) min inp mout o) ->
  staged_all sites ms bs -> mem_bytes min -> mem_bytes (e_mem e) -> e_wp e <= e_hi e <= e_end e ->
  load min from (length (concat bs)) = concat bs -> rem <= zlen (concat bs) -> rem <= Z.of_nat fuel ->
  encode_loop known cf fuel min from rem last e = (e', rem', k) ->
  exists n ws,
    (n <= length ms)%nat /\ k = Z.of_nat n /\
    compressed_all sites (firstn n ms) ws /\
    rem' = rem - zlen (concat (firstn n bs)) /\
    load (e_mem e') (e_wp e) (length (wmsgs_bytes last ws)) = wmsgs_bytes last ws /\
    e_wp e' = e_wp e + zlen (wmsgs_bytes last ws) /\
    e_base e' = e_base e /\ e_end e' = e_end e /\ e_ext e' = e_ext e /\
    e_hi e <= e_hi e' /\ e_wp e' <= e_hi e' <= e_end e' /\
    (forall y, y < e_wp e \/ e_hi e' <= y -> e_mem e' y = e_mem e y) /\
    mem_bytes (e_mem e') /\
    2 * zlen (wmsgs_bytes last ws) <= 3 * zlen (concat (firstn n bs)) /\
    Forall (fun x => known (sm_id x) = true) (firstn n ms) /\
    (0 < rem' -> exists x b, nth_error ms n = Some x /\ nth_error bs n = Some b /\
       stopped known (zlen b) x rem' (e_space e')).
Proof.
  intros sites known cf ms. induction ms as [|x ms IH];
    intros bs fuel min from rem last e e' rem' k Hcf Hst Hmin Hm He HL Hrem Hfuel E.
  - inversion Hst; subst. cbn [concat] in Hrem. rewrite zlen_nil in Hrem.
    assert (encode_loop known cf fuel min from rem last e = (e, rem, 0)) as E0.
    { destruct fuel; [reflexivity|]. cbn [encode_loop]. replace (rem <=? 0) with true by lia. reflexivity. }
    rewrite E0 in E. assert (e' = e /\ rem' = rem /\ k = 0) as (-> & -> & ->) by (splits; congruence).
    exists 0%nat, []. cbn [firstn compressed_all concat wmsgs_bytes length load]. rewrite zlen_nil.
    splits; auto; try lia; constructor.
  - inversion Hst as [|x0 b0 ms0 bs' Hx Hst' E1 E2]; subst. clear Hst.
    destruct Hx as (s & Hs & Hok & ->).
    set (b := staged_bytes s x) in *.
    assert (STOP : encode_loop known cf fuel min from rem last e = (e, rem, 0) ->
      (0 < rem -> stopped known (zlen b) x rem (e_space e)) -> 
      exists n ws,
    (n <= length (x :: ms))%nat /\ k = Z.of_nat n /\
    compressed_all sites (firstn n (x :: ms)) ws /\
    rem' = rem - zlen (concat (firstn n (b :: bs'))) /\
    load (e_mem e') (e_wp e) (length (wmsgs_bytes last ws)) = wmsgs_bytes last ws /\
    e_wp e' = e_wp e + zlen (wmsgs_bytes last ws) /\
    e_base e' = e_base e /\ e_end e' = e_end e /\ e_ext e' = e_ext e /\
    e_hi e <= e_hi e' /\ e_wp e' <= e_hi e' <= e_end e' /\
    (forall y, y < e_wp e \/ e_hi e' <= y -> e_mem e' y = e_mem e y) /\
    mem_bytes (e_mem e') /\
    2 * zlen (wmsgs_bytes last ws) <= 3 * zlen (concat (firstn n (b :: bs'))) /\
    Forall (fun x => known (sm_id x) = true) (firstn n (x :: ms)) /\
    (0 < rem' -> exists x' b', nth_error (x :: ms) n = Some x' /\ nth_error (b :: bs') n = Some b' /\
       stopped known (zlen b') x' rem' (e_space e'))).
    { intros E0 HS. rewrite E0 in E. assert (e' = e /\ rem' = rem /\ k = 0) as (-> & -> & ->) by (splits; congruence).
      exists 0%nat, []. cbn [firstn compressed_all concat wmsgs_bytes length load nth_error]. rewrite zlen_nil.
      splits; auto; try lia; try constructor. intros R. exists x, b. splits; auto. }
    cbn [concat] in HL, Hrem. apply load_split in HL. destruct HL as [L1 L2].
    destruct (staged_read s x min from Hok L1) as (R1 & R2 & R3 & _). fold b in R2, L1, L2.
    assert (Zb : 16 <= zlen b). { subst b. rewrite staged_zlen. pose proof (zlen_nonneg _ (imgs (si_params s) (sm_ns x) (sm_args x))). lia. }
    rewrite zlen_app in Hrem.
    destruct fuel as [|fuel].
    { apply STOP; [reflexivity|lia]. }
    cbn [encode_loop] in STOP, E. cbv zeta in STOP, E.
    destruct (rem <=? 0) eqn:Er. { apply STOP; [reflexivity|lia]. }
    rewrite R1, R2, R3 in STOP, E.
    destruct (known (sm_id x)) eqn:Ek; cbn [negb] in STOP, E.
    2:{ apply STOP; [reflexivity|left; exact Ek]. }
    destruct ((rem <? zlen b) && (zlen b <? STAGING_BUFFER_SIZE / 2)) eqn:Eb.
    { apply STOP; [reflexivity|]. apply andb_prop in Eb. right; left. lia. }
    assert (Emax : to_u 32 (to_u 32 (2 * zlen b) + 16) = 2 * zlen b + 16).
    { assert (2 * zlen b + 16 < 2 ^ 32) by (apply Hok). rewrite (to_u_id 32 (2 * zlen b)) by lia. apply to_u_id. lia. }
    rewrite Emax in STOP, E.
    destruct (e_space e <? 2 * zlen b + 16) eqn:Es.
    { apply STOP; [reflexivity|]. right; right. lia. }
    clear STOP.
    set (h := compressLogHeader (e_mem e) (e_wp e) (sm_id x) (sm_ts x) last) in *.
    rewrite (Hcf _ (proj1 (proj1 Hok)) Ek s Hs) in E.
    set (c := compress (si_types s) (si_nibbles s) (si_params s) min (from + 16) (lh_mem h) (lh_pos h)) in *.
    set (e1 := Enc (cs_mem c) (e_base e) (cs_out c) (e_end e) (e_ext e)
                 (Z.max (Z.max (e_hi e) (lh_touched h)) (Z.max (cs_hi c) (cs_out c)))) in *.
    destruct (encode_loop known cf fuel min (from + zlen b) (rem - zlen b) (sm_ts x) e1) as [[e2 r2] k2] eqn:E2.
    assert (e' = e2 /\ rem' = r2 /\ k = 1 + k2) as (-> & -> & ->) by (splits; congruence). clear E.
    destruct (encode_one s x min from (e_mem e) (e_wp e) last h c Hok Hmin Hm L1 eq_refl eq_refl)
      as (w & C1 & C2 & C3 & C4 & C5 & C6 & C7 & C8). fold b in C6, C7, C8.
    assert (e_space e = e_end e - e_wp e) as Esp by reflexivity.
    pose proof (zlen_nonneg _ (wmsg_bytes last w)).
    assert (H1 : e_wp e1 <= e_hi e1 <= e_end e1) by (cbn [e1 e_hi e_wp e_end]; lia).
    destruct (IH bs' fuel min (from + zlen b) (rem - zlen b) (sm_ts x) e1 e2 r2 k2)
      as (n & ws & I1 & I2 & I3 & I4 & I5 & I6 & I7 & I8 & I9 & I10 & I12 & I13 & I14 & I15 & I16 & I17);
      auto; try lia.
    exists (S n), (w :: ws).
    assert (Ew1 : e_wp e1 = e_wp e + zlen (wmsg_bytes last w)) by exact C3.
    assert (W : w_ts w = sm_ts x) by apply C1.
    pose proof (zlen_nonneg _ (wmsgs_bytes (sm_ts x) ws)).
    cbn [firstn compressed_all concat wmsgs_bytes nth_error length]. rewrite W. rewrite !zlen_app.
    splits; auto; try lia.
    + exists s. auto.
    + apply load_append.
      * rewrite <- C2 at 2. apply load_ext. intros y Hy. rewrite I13 by (unfold zlen in *; lia). reflexivity.
      * rewrite <- Ew1. exact I5.
    + cbn [e1 e_hi] in I10. lia.
    + intros y Hy. rewrite I13 by lia. cbn [e1 e_mem]. apply C4. cbn [e1 e_hi] in I10. lia.
Qed.

Ltac bf := unfold bf_set, bf_get; change (2 ^ 0) with 1; change (2 ^ 1) with 2; change (2 ^ 2) with 4;
  change (2 ^ 3) with 8; change (2 ^ 4) with 16; lia.

(** The extent header, whatever was in the byte before. *)
Lemma extent_byte : forall b np sh nb, is_byte b -> 0 <= np < 2 -> 0 <= sh < 2 -> 0 <= nb < 16 ->
  bf_set (bf_set (bf_set (bf_set b 0 2 2) 2 1 np) 3 1 sh) 4 4 nb = 2 + 4 * np + 8 * sh + 16 * nb.
Proof.
  intros b np sh nb Hb Hn Hs Hx. unfold is_byte in Hb.
  assert (E1 : bf_set b 0 2 2 = 2 + 4 * (b / 4)) by (bf).
  rewrite E1. clear E1. set (q := b / 4). assert (Hq : 0 <= q < 64) by (subst q; lia). clearbody q. clear b Hb.
  assert (E2 : bf_set (2 + 4 * q) 2 1 np = 2 + 4 * np + 8 * (q / 2)) by (bf).
  rewrite E2. clear E2. set (r := q / 2). assert (Hr : 0 <= r < 32) by (subst r; lia). clearbody r. clear q Hq.
  assert (E3 : bf_set (2 + 4 * np + 8 * r) 3 1 sh = 2 + 4 * np + 8 * sh + 16 * (r / 2)) by (bf).
  rewrite E3. clear E3. set (t := r / 2). assert (Ht : 0 <= t < 16) by (subst t; lia). clearbody t. clear r Hr.
  bf.
Qed.

Definition xhead (tid : Z) (newPass : bool) : Z :=
  2 + 4 * (if newPass then 1 else 0) + (if tid <? 16 then 8 + 16 * tid else 16 * num_bytes tid).

Lemma extentStart_spec : forall e tid np e', mem_bytes (e_mem e) -> 0 <= tid < 2 ^ 32 ->
  e_wp e <= e_hi e <= e_end e ->
  encodeBufferExtentStart e tid np = Some e' ->
  9 <= e_space e /\
  e_mem e' (e_wp e) = xhead tid np /\
  load (e_mem e') (e_wp e + 1) 4 = le_bytes 4 (5 + zlen (tid_bytes tid)) /\
  load (e_mem e') (e_wp e + 5) (length (tid_bytes tid)) = tid_bytes tid /\
  e_wp e' = e_wp e + 5 + zlen (tid_bytes tid) /\
  e_base e' = e_base e /\ e_end e' = e_end e /\ e_ext e' = Some (e_wp e + 1) /\
  e_hi e <= e_hi e' /\ e_wp e' <= e_hi e' <= e_end e' /\
  (forall y, y < e_wp e \/ e_hi e' <= y -> e_mem e' y = e_mem e y) /\
  mem_bytes (e_mem e').
Proof.
  intros e tid np e' Hm Ht He E. unfold encodeBufferExtentStart in E. cbv zeta in E.
  destruct (e_space e <? 9) eqn:Es; [discriminate|]. unfold tid_bytes, xhead.
  set (p := e_wp e) in *. assert (e_space e = e_end e - p) by reflexivity.
  destruct (tid <? 16) eqn:Et.
  - apply (f_equal (fun o => match o with Some x => x | None => e end)) in E. cbv iota beta in E. subst e'.
    cbn [e_mem e_wp e_base e_end e_ext e_hi]. replace (p + 5 - p) with 5 by lia.
    cbn [length load]. rewrite zlen_nil. rewrite (to_u_id 32 5) by lia.
    splits; auto; try lia.
    + rewrite store_outside by (rewrite le_bytes_zlen; lia). unfold bf_store. rewrite !store1_same.
      rewrite extent_byte; try (destruct np; lia); [destruct np; rewrite land15; lia|apply Hm|].
      rewrite land15. lia.
    + apply (load_store_same _ _ (le_bytes 4 5)).
    + intros y Hy. rewrite store_outside by (rewrite le_bytes_zlen; lia). unfold bf_store.
      rewrite !store1_other by lia. reflexivity.
    + apply store_bytes; [|apply le_bytes_is_byte]. repeat apply bf_store_bytes; auto; lia.
  - set (m3 := bf_store _ p 3 1 0) in E.
    assert (W : wf_pval (PUns 4 tid)) by (cbn; unfold uint_size; lia).
    destruct (pack_spec m3 (p + 5) _ W) as (A & B & C & D & L & F). cbn [pbytes pcode psize] in *.
    set (r := pack m3 (p + 5) (PUns 4 tid)) in *.
    assert (MR : mem_bytes (pk_mem r)) by (apply pack_bytes; [|exact I]; repeat apply bf_store_bytes; auto; lia).
    apply (f_equal (fun o => match o with Some x => x | None => e end)) in E. cbv iota beta in E. subst e'.
    cbn [e_mem e_wp e_base e_end e_ext e_hi]. rewrite B, D, C. rewrite ubytes_zlen in *.
    pose proof (num_bytes_u32 tid ltac:(lia)).
    replace (p + 5 + num_bytes tid - p) with (5 + num_bytes tid) by lia. rewrite to_u_id by lia.
    splits; auto; try lia.
    + rewrite store_outside by (rewrite le_bytes_zlen; lia). unfold bf_store at 1. rewrite store1_same.
      rewrite F by lia. unfold m3, bf_store. rewrite !store1_same.
      rewrite extent_byte; try (destruct np; lia); [destruct np; rewrite land15; lia|apply Hm|].
      rewrite land15. lia.
    + apply (load_store_same _ _ (le_bytes 4 (5 + num_bytes tid))).
    + rewrite load_store_disjoint by (rewrite le_bytes_zlen, ubytes_length; lia).
      rewrite <- A at 2. apply load_ext. intros y Hy. unfold bf_store. apply store1_other. lia.
    + intros y Hy. rewrite store_outside by (rewrite le_bytes_zlen; lia). unfold bf_store at 1. rewrite store1_other by lia.
      rewrite F by lia. unfold m3, bf_store. rewrite !store1_other by lia. reflexivity.
    + apply store_bytes; [|apply le_bytes_is_byte]. apply bf_store_bytes; auto; lia.
Qed.

Lemma load_store_other : forall m a bs b n,
  b + Z.of_nat n <= a \/ a + zlen bs <= b -> load (store m a bs) b n = load m b n.
Proof. intros. apply load_ext. intros y Hy. apply store_outside. lia. Qed.

Lemma le_val_load_store : forall m a n v, 0 <= v < 256 ^ Z.of_nat n ->
  load m a n = le_bytes n v -> le_val (load m a n) = v.
Proof. intros m a n v Hv ->. rewrite le_val_le_bytes. apply Z.mod_small. auto. Qed.

Lemma nth_error_skipn_add : forall A (l : list A) a n, nth_error (skipn a l) n = nth_error l (a + n).
Proof.
  induction l as [|x l IH]; intros a n; destruct a; cbn [skipn Nat.add nth_error]; auto. destruct n; reflexivity.
Qed.

(** encodeLogMsgs on staged messages. *)
Lemma encode_with_spec : forall sites (known : Z -> bool) cf ms bs min from nbytes tid np e e' read k,
  (forall id, 0 <= id -> known id = true -> forall s, nth_error sites (Z.to_nat id) = Some s ->
     forall min inp mout o, cf id min inp mout o = compress (si_types s) (si_nibbles s) (si_params s) min inp mout o) ->
  staged_all sites ms bs -> mem_bytes min -> mem_bytes (e_mem e) -> e_wp e <= e_hi e <= e_end e ->
  e_space e < 2 ^ 32 -> 0 <= tid < 2 ^ 32 ->
  load min from (length (concat bs)) = concat bs -> 0 <= nbytes <= zlen (concat bs) ->
  encode_with known cf e min from nbytes tid np = (e', read, k) ->
  (e_space e < 9 /\ e' = e /\ read = 0 /\ k = 0) \/
  exists n ws, 9 <= e_space e /\
    (n <= length ms)%nat /\ k = Z.of_nat n /\
    compressed_all sites (firstn n ms) ws /\
    read = zlen (concat (firstn n bs)) /\
    load (e_mem e') (e_wp e) (length (extent_bytes tid np ws)) = extent_bytes tid np ws /\
    e_wp e' = e_wp e + zlen (extent_bytes tid np ws) /\
    e_base e' = e_base e /\ e_end e' = e_end e /\
    e_hi e <= e_hi e' /\ e_wp e' <= e_hi e' <= e_end e' /\
    (forall y, y < e_wp e \/ e_hi e' <= y -> e_mem e' y = e_mem e y) /\
    mem_bytes (e_mem e') /\
    2 * zlen (extent_bytes tid np ws) <= 18 + 3 * read /\
    Forall (fun x => known (sm_id x) = true) (firstn n ms) /\
    (read < nbytes -> exists x b, nth_error ms n = Some x /\ nth_error bs n = Some b /\
       stopped known (zlen b) x (nbytes - read) (e_space e')).
Proof.
  intros sites known cf ms bs min from nbytes tid np e e' read k Hcf Hst Hmin Hm He Hsp Ht HL Hn E.
  unfold encode_with in E.
  destruct (encodeBufferExtentStart e tid np) as [e1|] eqn:E1.
  2:{ left. unfold encodeBufferExtentStart in E1. destruct (e_space e <? 9) eqn:Es.
      - assert (e' = e /\ read = 0 /\ k = 0) by (splits; congruence). intuition lia.
      - cbv zeta in E1. destruct (tid <? 16); discriminate. }
  right.
  destruct (extentStart_spec e tid np e1 Hm Ht He E1) as (X0 & X1 & X2 & X3 & X4 & X5 & X6 & X7 & X8 & X9 & X10 & X11).
  destruct (encode_loop known cf (Z.to_nat nbytes) min from nbytes 0 e1) as [[e2 rem] k2] eqn:E2.
  destruct (encode_loop_spec sites known cf ms bs (Z.to_nat nbytes) min from nbytes 0 e1 e2 rem k2 Hcf Hst Hmin X11 X9 HL ltac:(lia) ltac:(lia) E2)
    as (n & ws & I1 & I2 & I3 & I4 & I5 & I6 & I7 & I8 & I9 & I10 & I12 & I13 & I14 & I15 & I16 & I17).
  rewrite I9, X7 in E. cbv zeta in E.
  set (B := wmsgs_bytes 0 ws) in *. set (T := tid_bytes tid) in *.
  pose proof (zlen_nonneg _ B). pose proof (zlen_nonneg _ T).
  assert (LT : zlen T <= 4).
  { subst T. unfold tid_bytes. destruct (tid <? 16); [rewrite zlen_nil; lia|]. rewrite ubytes_zlen.
    pose proof (num_bytes_u32 tid Ht). lia. }
  assert (Esp : e_space e = e_end e - e_wp e) by reflexivity.
  assert (L4 : load (e_mem e2) (e_wp e + 1) 4 = le_bytes 4 (5 + zlen T)).
  { rewrite <- X2. apply load_ext. intros y Hy. apply I13. lia. }
  assert (SZ : to_u 32 (le_val (load (e_mem e2) (e_wp e + 1) 4) + to_u 32 (e_wp e2 - e_wp e1)) = 5 + zlen T + zlen B).
  { rewrite L4, le_val_le_bytes. rewrite Z.mod_small by (change (256 ^ Z.of_nat 4) with (2 ^ 32); lia).
    rewrite (to_u_id 32 (e_wp e2 - e_wp e1)) by lia. rewrite to_u_id by lia. lia. }
  rewrite SZ in E.
  set (m' := store (e_mem e2) (e_wp e + 1) (le_bytes 4 (5 + zlen T + zlen B))) in *.
  assert (e' = Enc m' (e_base e2) (e_wp e2) (e_end e2) (Some (e_wp e + 1)) (e_hi e2) /\ read = nbytes - rem /\ k = k2)
    as (-> & -> & ->) by (splits; congruence).
  cbn [e_mem e_wp e_base e_end e_hi].
  assert (LX : zlen (extent_bytes tid np ws) = 5 + zlen T + zlen B).
  { unfold extent_bytes. fold T B. rewrite !zlen_app, zlen_cons, zlen_nil, le_bytes_zlen. lia. }
  exists n, ws. rewrite LX. splits; auto; try lia.
  - unfold extent_bytes. fold T B. apply load_append.
    + cbn [length load]. f_equal. unfold m'. rewrite store_outside by (rewrite le_bytes_zlen; lia).
      rewrite I13 by lia. exact X1.
    + rewrite zlen_cons, zlen_nil. replace (e_wp e + (1 + 0)) with (e_wp e + 1) by lia. apply load_append.
      * apply load_store_same.
      * rewrite le_bytes_zlen. replace (e_wp e + 1 + Z.of_nat 4) with (e_wp e + 5) by lia. apply load_append.
        -- unfold m'. rewrite load_store_other by (rewrite le_bytes_zlen; lia).
           rewrite <- X3 at 2. apply load_ext. intros y Hy. apply I13. unfold zlen in *. lia.
        -- replace (e_wp e + 5 + zlen T) with (e_wp e1) by lia. unfold m'.
           rewrite load_store_other by (rewrite le_bytes_zlen; lia). exact I5.
  - intros y Hy. unfold m'. rewrite store_outside by (rewrite le_bytes_zlen; lia). rewrite I13 by lia. apply X10. lia.
  - apply store_bytes; auto using le_bytes_is_byte.
  - intros R. destruct I17 as (x & b & N1 & N2 & N3); [lia|]. exists x, b. splits; auto.
    replace (nbytes - (nbytes - rem)) with rem by lia. exact N3.
Qed.

Lemma stores_load : forall m p a b, load (store (store m p a) (p + zlen a) b) p (length (a ++ b)) = a ++ b.
Proof.
  intros. rewrite (meq_load _ _ _ _ (store_app m p a b)). apply load_store_same.
Qed.

(** Strings of bytes. *)
Definition site_bytes (s : site) : Prop := Forall is_byte (si_file s) /\ Forall is_byte (si_fmt s).

Lemma dict_entry_zlen : forall s, zlen (dict_entry s) = 9 + (zlen (si_file s) + 1) + (zlen (si_fmt s) + 1).
Proof.
  intros. unfold dict_entry. rewrite !zlen_app, !le_bytes_zlen, !zlen_cons, zlen_nil. lia.
Qed.

Lemma le_bytes_u16 : forall v, le_bytes 2 (to_u 16 v) = le_bytes 2 v.
Proof. intros. exact (le_bytes_mod 2 v). Qed.

Lemma put_entry : forall m p s,
  meq (putDictionaryEntry m p s) (store m p (dict_entry s)).
Proof.
  intros m p s. unfold putDictionaryEntry, dict_entry. cbv zeta.
  pose proof (zlen_nonneg _ (si_file s)). pose proof (zlen_nonneg _ (si_fmt s)).
  rewrite !le_bytes_u16.
  assert (K : forall q x r m0, meq m0 (store m p q) -> r = p + zlen q -> meq (store m0 r x) (store m p (q ++ x))).
  { intros q x r m0 Hq ->. eapply meq_trans; [apply store_meq; exact Hq|]. apply store_app. }
  assert (F : zlen (si_file s ++ [0]) = zlen (si_file s) + 1) by (rewrite zlen_app, zlen_cons, zlen_nil; lia).
  set (f := si_file s ++ [0]) in *. set (g := si_fmt s ++ [0]).
  rewrite !app_assoc.
  repeat (apply K; [|rewrite ?zlen_app, ?le_bytes_zlen, ?F; lia]).
  intro. reflexivity.
Qed.

Lemma dict_entry_bytes : forall s, site_bytes s -> Forall is_byte (dict_entry s).
Proof.
  intros s (A & B). unfold dict_entry.
  repeat (apply Forall_app; split); auto using le_bytes_is_byte; (constructor; [unfold is_byte; lia|constructor]).
Qed.

Lemma dictionary_loop_spec : forall ss m p end_ m' p' k, Forall site_bytes ss -> mem_bytes m ->
  p <= end_ -> end_ - p < 2 ^ 32 -> dictionary_loop m p end_ ss = (m', p', k) ->
  exists n, (n <= length ss)%nat /\ k = Z.of_nat n /\
    let b := concat (map dict_entry (firstn n ss)) in
    load m' p (length b) = b /\ p' = p + zlen b /\ p' <= end_ /\
    (forall y, y < p \/ p' <= y -> m' y = m y) /\ mem_bytes m' /\
    (forall s, nth_error ss n = Some s -> end_ - p' <= zlen (dict_entry s)).
Proof.
  induction ss as [|s ss IH]; intros m p end_ m' p' k Hok Hm Hp Hs E; cbn [dictionary_loop] in E.
  - assert (m' = m /\ p' = p /\ k = 0) as (-> & -> & ->) by (splits; congruence).
    exists 0%nat. cbn [firstn map concat length load nth_error]. cbv zeta. rewrite zlen_nil. splits; auto; try lia. discriminate.
  - inversion Hok; subst. cbv zeta in E. rewrite <- dict_entry_zlen in E. rewrite to_u_id in E by lia.
    destruct (end_ - p <=? zlen (dict_entry s)) eqn:Es.
    { assert (m' = m /\ p' = p /\ k = 0) as (-> & -> & ->) by (splits; congruence).
      exists 0%nat. cbn [firstn map concat length load nth_error]. cbv zeta. rewrite zlen_nil. splits; auto; try lia. intros s0 Hs0. assert (s0 = s) as -> by congruence. lia. }
    destruct (dictionary_loop _ _ _ ss) as [[m2 p2] k2] eqn:E2.
    assert (m' = m2 /\ p' = p2 /\ k = 1 + k2) as (-> & -> & ->) by (splits; congruence). clear E.
    pose proof (put_entry m p s) as PE. pose proof (zlen_nonneg _ (dict_entry s)).
    assert (MB : mem_bytes (putDictionaryEntry m p s)).
    { intro y. rewrite PE. apply store_bytes; auto using dict_entry_bytes. }
    apply IH in E2; auto; try lia.
    destruct E2 as (n & I1 & -> & I3 & I4 & I5 & I6 & I7 & I8).
    exists (S n). cbn [firstn map concat nth_error length]. rewrite zlen_app.
    pose proof (zlen_nonneg _ (concat (map dict_entry (firstn n ss)))).
    splits; auto; try lia.
    + apply load_append; auto. rewrite <- (load_store_same m p (dict_entry s)) at 2.
      apply load_ext. intros y Hy. rewrite I6 by (unfold zlen in *; lia). apply PE.
    + intros y Hy. rewrite I6 by lia. rewrite PE. apply store_outside. lia.
Qed.

Lemma dictionary_spec : forall e pos sites e' pos' ret, Forall site_bytes sites -> mem_bytes (e_mem e) ->
  e_wp e <= e_hi e <= e_end e -> e_space e < 2 ^ 30 -> 0 <= pos <= zlen sites -> zlen sites < 2 ^ 32 ->
  encodeNewDictionaryEntries e pos sites = (e', pos', ret) ->
  (e_space e <= 8 /\ e' = e /\ pos' = pos /\ ret = 0) \/
  8 < e_space e /\ pos <= pos' <= zlen sites /\
  let news := firstn (Z.to_nat (pos' - pos)) (skipn (Z.to_nat pos) sites) in
  let b := dict_bytes pos' news in
  load (e_mem e') (e_wp e) (length b) = b /\
  e_wp e' = e_wp e + zlen b /\ ret = zlen b /\
  e_base e' = e_base e /\ e_end e' = e_end e /\
  e_hi e <= e_hi e' /\ e_wp e' <= e_hi e' <= e_end e' /\
  (forall y, y < e_wp e \/ e_hi e' <= y -> e_mem e' y = e_mem e y) /\
  mem_bytes (e_mem e') /\
  (forall s, nth_error sites (Z.to_nat pos') = Some s -> e_space e' <= zlen (dict_entry s)).
Proof.
  intros e pos sites e' pos' ret Hok Hm He Hs Hp Hz E. unfold encodeNewDictionaryEntries in E. cbv zeta in E.
  assert (Esp : e_space e = e_end e - e_wp e) by reflexivity.
  rewrite to_u_id in E by lia. destruct (e_space e <=? 8) eqn:E8.
  { left. assert (e' = e /\ pos' = pos /\ ret = 0) by (splits; congruence). intuition lia. }
  right. set (p := e_wp e) in *. set (m1 := bf_store (e_mem e) p 0 2 ET_LOG_MSGS_OR_DIC) in *.
  destruct (dictionary_loop m1 (p + 8) (e_end e) (skipn (Z.to_nat pos) sites)) as [[m2 q] k] eqn:E2.
  assert (M1 : mem_bytes m1) by (apply bf_store_bytes; auto; lia).
  apply dictionary_loop_spec in E2; auto; try lia.
  2:{ apply Forall_forall. intros x Hx. rewrite Forall_forall in Hok. apply Hok.
      rewrite <- (firstn_skipn (Z.to_nat pos) sites). apply in_or_app. now right. }
  destruct E2 as (n & I1 & -> & I3 & I4 & I5 & I6 & I7 & I8). rewrite skipn_length in I1.
  set (b := concat (map dict_entry (firstn n (skipn (Z.to_nat pos) sites)))) in *. pose proof (zlen_nonneg _ b).
  assert (Q : q - p = 8 + zlen b) by lia. rewrite Q in E. rewrite (Z.mod_small (8 + zlen b)) in E by lia.
  assert (Wd : le_val (load m2 p 4) mod 4 = 1).
  { cbn [load le_val]. rewrite I6 by lia. unfold m1, bf_store, ET_LOG_MSGS_OR_DIC. rewrite store1_same.
    pose proof (Hm p) as Hb. unfold is_byte in Hb.
    assert (bf_set (e_mem e p) 0 2 1 = 1 + 4 * (e_mem e p / 4)) as -> by bf. lia. }
  rewrite Wd in E.
  set (m3 := store m2 p (le_bytes 4 (1 + 4 * (8 + zlen b)))) in *.
  assert (U : to_u 32 (pos + Z.of_nat n) = pos + Z.of_nat n) by (apply to_u_id; unfold zlen in *; lia). rewrite U in E.
  set (m4 := store m3 (p + 4) (le_bytes 4 (pos + Z.of_nat n))) in *.
  assert (e' = Enc m4 (e_base e) q (e_end e) (e_ext e) (Z.max (e_hi e) q) /\ pos' = pos + Z.of_nat n /\ ret = 8 + zlen b)
    as (-> & -> & ->) by (splits; congruence). clear E.
  cbn [e_mem e_wp e_base e_end e_hi]. unfold zlen in Hp at 1.
  split; [lia|]. split; [unfold zlen in *; lia|].
  replace (Z.to_nat (pos + Z.of_nat n - pos)) with n by lia.
  unfold dict_bytes. fold b. rewrite !zlen_app, !le_bytes_zlen.
  splits; auto; try lia.
  - apply load_append.
    + unfold m4. rewrite load_store_other by (rewrite !le_bytes_zlen, le_bytes_length; lia). apply load_store_same.
    + rewrite le_bytes_zlen. apply load_append.
      * apply load_store_same.
      * rewrite le_bytes_zlen. unfold m4, m3. rewrite !load_store_other by (rewrite le_bytes_zlen; lia).
        replace (p + Z.of_nat 4 + Z.of_nat 4) with (p + 8) by lia. exact I3.
  - intros y Hy. unfold m4, m3. rewrite !store_outside by (rewrite le_bytes_zlen; lia). rewrite I6 by lia.
    unfold m1, bf_store. apply store1_other. lia.
  - repeat (apply store_bytes; auto using le_bytes_is_byte).
  - intros s Hsn. unfold e_space. cbn [e_wp e_end]. apply I8. rewrite nth_error_skipn_add.
    replace (Z.to_nat pos + n)%nat with (Z.to_nat (pos + Z.of_nat n)) by lia. exact Hsn.
Qed.

Lemma checkpoint_spec : forall e rdtsc unix cps e', mem_bytes (e_mem e) ->
  e_wp e <= e_hi e <= e_end e -> length cps = 8%nat -> Forall is_byte cps ->
  insertCheckpoint e rdtsc unix cps = Some e' ->
  33 <= e_space e /\
  exists junk, 0 <= junk < 64 /\
  let b := checkpoint_bytes junk rdtsc unix cps in
  load (e_mem e') (e_wp e) (length b) = b /\
  e_wp e' = e_wp e + zlen b /\ zlen b = 33 /\
  e_base e' = e_base e /\ e_end e' = e_end e /\
  e_hi e <= e_hi e' /\ e_wp e' <= e_hi e' <= e_end e' /\
  (forall y, y < e_wp e \/ e_hi e' <= y -> e_mem e' y = e_mem e y) /\
  mem_bytes (e_mem e').
Proof.
  intros e rdtsc unix cps e' Hm He Hc Hb E. unfold insertCheckpoint in E. cbv zeta in E.
  assert (Esp : e_space e = e_end e - e_wp e) by reflexivity.
  destruct (e_space e <? 33) eqn:E8; [discriminate|]. set (p := e_wp e) in *.
  apply (f_equal (fun o => match o with Some x => x | None => e end)) in E. cbv iota beta in E. subst e'.
  split; [lia|]. exists (e_mem e p / 4). pose proof (Hm p) as Hb0. unfold is_byte in Hb0. split; [lia|].
  cbn [e_mem e_wp e_base e_end e_hi]. assert (Zc : zlen cps = 8) by (unfold zlen; lia).
  assert (ZB : zlen (checkpoint_bytes (e_mem e p / 4) rdtsc unix cps) = 33).
  { unfold checkpoint_bytes. rewrite !zlen_app, !le_bytes_zlen, zlen_cons, zlen_nil, Zc. reflexivity. }
  cbv zeta. rewrite ZB.
  set (m6 := store _ (p + 29) _).
  assert (M : meq m6 (store (e_mem e) p (checkpoint_bytes (e_mem e p / 4) rdtsc unix cps))).
  { assert (K : forall q x r m0, meq m0 (store (e_mem e) p q) -> r = p + zlen q -> meq (store m0 r x) (store (e_mem e) p (q ++ x))).
    { intros q x r m0 Hq ->. eapply meq_trans; [apply store_meq; exact Hq|]. apply store_app. }
    unfold m6, checkpoint_bytes. rewrite !app_assoc.
    repeat (apply K; [|rewrite ?zlen_app, ?le_bytes_zlen, ?zlen_cons, ?zlen_nil, ?Zc; lia]).
    unfold bf_store, ET_CHECKPOINT. replace (bf_set (e_mem e p) 0 2 3) with (3 + 4 * (e_mem e p / 4)) by bf.
    intro. reflexivity. }
  splits; auto; try lia.
  - rewrite (meq_load _ _ _ _ M). apply load_store_same.
  - intros y Hy. rewrite M. apply store_outside. lia.
  - intro y. rewrite M. apply store_bytes; auto. unfold checkpoint_bytes.
    repeat (apply Forall_app; split); auto using le_bytes_is_byte. constructor; [unfold is_byte; lia|constructor].
Qed.
