(** Proofs about the log entry header codec. *)
From Verif Require Import Base BaseProofs Packer PackerProofs LogHeader.

Definition hdelta (ts last : Z) : Z := to_s 64 (ts - last).

(** The bytes of a header. *)
Definition hbytes (fmtId ts last : Z) : list Z :=
  [1 + 4 * (num_bytes fmtId - 1) + 16 * pcode (PS64 (hdelta ts last))]
    ++ ubytes fmtId ++ pbytes (PS64 (hdelta ts last)).

Lemma store1_same : forall m p v, store m p [v] p = v.
Proof.
  intros. rewrite store_inside by (rewrite zlen_cons, zlen_nil; lia).
  rewrite Z.sub_diag. reflexivity.
Qed.

Lemma store1_other : forall m p v y, y <> p -> store m p [v] y = m y.
Proof. intros. apply store_outside. rewrite zlen_cons, zlen_nil. lia. Qed.

Lemma hdelta_wf : forall ts last, wf_pval (PS64 (hdelta ts last)).
Proof. intros. apply (to_s_range 64). lia. Qed.

Lemma num_bytes_u32 : forall v, 0 <= v < 2 ^ 32 -> 1 <= num_bytes v <= 4.
Proof. intros. pose proof (num_bytes_range v). split; [lia|]. apply num_bytes_le; lia. Qed.

Lemma land3 : forall c, Z.land 3 c = c mod 4.
Proof. intros. rewrite Z.land_comm. apply (Z.land_ones c 2). lia. Qed.
Lemma land7 : forall c, Z.land 7 c = c mod 8.
Proof. intros. rewrite Z.land_comm. apply (Z.land_ones c 3). lia. Qed.

Lemma load_cons : forall m p v bs, m p = v -> load m (p + 1) (length bs) = bs ->
  load m p (length (v :: bs)) = v :: bs.
Proof. intros. cbn [length load]. now rewrite H, H0. Qed.

Lemma load_append : forall m p a b,
  load m p (length a) = a -> load m (p + zlen a) (length b) = b ->
  load m p (length (a ++ b)) = a ++ b.
Proof. intros. rewrite app_length, load_app. fold (zlen a). now rewrite H, H0. Qed.

Lemma compressLogHeader_spec : forall m p fmtId ts last,
  0 <= fmtId < 2 ^ 32 -> is_byte (m p) ->
  let r := compressLogHeader m p fmtId ts last in
  let d := PS64 (hdelta ts last) in
  load (lh_mem r) p (length (hbytes fmtId ts last)) = hbytes fmtId ts last /\
  lh_pos r = p + zlen (hbytes fmtId ts last) /\
  lh_ret r = 2 + (num_bytes fmtId - 1) + pcode d mod 8 /\
  lh_pos r <= lh_touched r <= lh_pos r + 7 /\
  (forall y, y < p \/ lh_touched r <= y -> lh_mem r y = m y).
Proof.
  intros m p fmtId ts last Hid Hbyte r d.
  pose proof (hdelta_wf ts last) as Hd. fold d in Hd.
  assert (wf_pval (PUns 4 fmtId)) as Hf by (cbn; unfold uint_size; lia).
  pose proof (pcode_int_range d Hd ltac:(discriminate)) as Hc.
  pose proof (num_bytes_u32 fmtId Hid) as Hn.
  unfold compressLogHeader in r. fold (hdelta ts last) in r. fold d in r.
  set (m1 := bf_store m p 0 2 ET_LOG_MSGS_OR_DIC) in r.
  destruct (pack_spec m1 (p + 1) _ Hf) as (A1 & B1 & C1 & D1 & L1 & F1).
  set (r1 := pack m1 (p + 1) (PUns 4 fmtId)) in *.
  set (m2 := bf_store (pk_mem r1) p 2 2 (Z.land 3 (pk_code r1 - 1))) in *.
  destruct (pack_spec m2 (pk_pos r1) _ Hd) as (A2 & B2 & C2 & D2 & L2 & F2).
  set (r2 := pack m2 (pk_pos r1) d) in *.
  set (m3 := bf_store (pk_mem r2) p 4 4 (Z.land 15 (pk_code r2))) in *.
  subst r; cbv zeta; cbn [lh_mem lh_pos lh_ret lh_touched].
  cbn [pbytes pcode psize] in A1, B1, C1, D1, L1, F1.
  rewrite ubytes_zlen in *.
  assert (m3 p = 1 + 4 * (num_bytes fmtId - 1) + 16 * pcode d) as Hp.
  { unfold m3, bf_store. rewrite store1_same. rewrite F2 by lia.
    unfold m2, bf_store. rewrite store1_same. rewrite F1 by lia.
    unfold m1, bf_store. rewrite store1_same.
    rewrite C1, C2, land3, land15. unfold bf_set, bf_get, ET_LOG_MSGS_OR_DIC, is_byte in *.
    change (2 ^ 0) with 1. change (2 ^ 2) with 4. change (2 ^ 4) with 16. lia. }
  assert (forall y, y <> p -> m3 y = pk_mem r2 y) as K3 by (intros; apply store1_other; auto).
  assert (forall y, y <> p -> m2 y = pk_mem r1 y) as K2 by (intros; apply store1_other; auto).
  assert (forall y, y <> p -> m1 y = m y) as K1 by (intros; apply store1_other; auto).
  pose proof (pslack d Hd). cbn [psize] in *.
  unfold hbytes. fold d.
  split; [|split; [|split; [|split]]].
  - cbn [app]. apply load_cons; auto. apply load_append.
    + rewrite <- A1 at 2. apply load_ext. intros. rewrite ubytes_length in *.
      rewrite K3 by lia. rewrite F2 by lia. apply K2. lia.
    + rewrite ubytes_zlen. rewrite <- A2 at 2. rewrite B1. apply load_ext.
      intros. apply K3. lia.
  - rewrite zlen_app, zlen_app, zlen_cons, zlen_nil, ubytes_zlen. rewrite B2, B1. lia.
  - rewrite land7. unfold bf_get. rewrite Hp.
    change (2 ^ 2) with 4. change (2 ^ 4) with 16. lia.
  - rewrite D1, D2, B2, B1. lia.
  - intros y Hy. rewrite K3 by lia. rewrite F2 by lia. rewrite K2 by lia.
    rewrite F1 by lia. apply K1. lia.
Qed.

Lemma hdelta_sum : forall ts last, 0 <= ts < 2 ^ 64 ->
  to_u 64 (to_u 64 (hdelta ts last) + last) = ts.
Proof.
  intros. unfold hdelta. unfold to_u at 2.
  rewrite to_s_mod by lia. unfold to_u.
  rewrite Zplus_mod_idemp_l. replace (ts - last + last) with ts by lia.
  apply Z.mod_small; lia.
Qed.

Lemma decompressLogHeader_spec : forall m p fmtId ts last,
  0 <= fmtId < 2 ^ 32 -> 0 <= ts < 2 ^ 64 ->
  load m p (length (hbytes fmtId ts last)) = hbytes fmtId ts last ->
  decompressLogHeader m p last = Some (fmtId, ts, p + zlen (hbytes fmtId ts last)).
Proof.
  intros m p fmtId ts last Hid Hts Hl.
  pose proof (hdelta_wf ts last) as Hd.
  pose proof (pcode_int_range _ Hd ltac:(discriminate)) as Hc.
  pose proof (num_bytes_u32 fmtId Hid) as Hn.
  unfold hbytes in Hl. set (d := PS64 (hdelta ts last)) in *.
  apply load_split in Hl. destruct Hl as [H0 Hl].
  apply load_split in Hl. destruct Hl as [H1 H2].
  cbn [length load] in H0. apply (f_equal (hd 0)) in H0. cbn [hd] in H0.
  rewrite zlen_cons, zlen_nil in *. rewrite Z.add_0_r in *.
  unfold decompressLogHeader, entryType. cbv zeta. rewrite H0. unfold bf_get.
  change (2 ^ 0) with 1. change (2 ^ 2) with 4. change (2 ^ 4) with 16.
  replace ((1 + 4 * (num_bytes fmtId - 1) + 16 * pcode d) / 1 mod 4) with 1 by lia.
  change (1 =? ET_LOG_MSGS_OR_DIC) with true. cbv iota.
  replace ((1 + 4 * (num_bytes fmtId - 1) + 16 * pcode d) / 4 mod 4 + 1) with (num_bytes fmtId) by lia.
  replace ((1 + 4 * (num_bytes fmtId - 1) + 16 * pcode d) / 16 mod 16) with (pcode d) by lia.
  rewrite (unpack_ubytes (Ity false 4) m (p + 1) fmtId) by (cbn; auto; lia).
  rewrite (unpack_int_spec (Ity true 8) m _ d (hdelta ts last) 8); auto.
  rewrite cast_id by (cbn; auto; lia).
  rewrite (cast_id (Ity true 8)) by (cbn; auto; lia).
  rewrite hdelta_sum by auto.
  unfold hbytes. fold d. rewrite !zlen_app, zlen_cons, zlen_nil.
  f_equal. f_equal. lia.
Qed.

Lemma hbytes_zlen : forall fmtId ts last, 0 <= fmtId < 2 ^ 32 ->
  3 <= zlen (hbytes fmtId ts last) <= 13.
Proof.
  intros. unfold hbytes. rewrite !zlen_app, zlen_cons, zlen_nil, ubytes_zlen.
  pose proof (num_bytes_u32 fmtId H).
  destruct (pack_spec (fun _ => 0) 0 _ (hdelta_wf ts last)) as (_ & _ & _ & _ & L & _).
  cbn [psize] in L. lia.
Qed.

Lemma hbytes_bytes : forall fmtId ts last, 0 <= fmtId < 2 ^ 32 ->
  Forall is_byte (hbytes fmtId ts last).
Proof.
  intros. unfold hbytes. pose proof (hdelta_wf ts last) as Hd.
  pose proof (pcode_int_range _ Hd ltac:(discriminate)).
  pose proof (num_bytes_u32 fmtId H).
  constructor; [unfold is_byte; lia|]. apply Forall_app. split.
  - apply ubytes_bytes.
  - now apply pbytes_bytes.
Qed.
