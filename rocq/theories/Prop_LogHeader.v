(** C05, C06: log entry headers. *)
From Verif Require Import Base BaseProofs Packer PackerProofs LogHeader LogHeaderProofs.

(** C05.  Any id and timestamp, relative to any previous timestamp, are read
    back exactly from any memory keeping the emitted bytes; at most 13 bytes are
    emitted and the first carries the tag of a log message.  The only thing
    assumed of the output buffer is that its cells hold bytes. *)
Theorem C05_header_roundtrip : forall m m' p fmtId ts last,
  0 <= fmtId < 2 ^ 32 -> 0 <= ts < 2 ^ 64 -> is_byte (m p) ->
  let r := compressLogHeader m p fmtId ts last in
  (forall x, p <= x < lh_pos r -> m' x = lh_mem r x) ->
  decompressLogHeader m' p last = Some (fmtId, ts, lh_pos r) /\
  m' p mod 4 = 1 /\ 3 <= lh_pos r - p <= 13.
Proof.
  intros m m' p fmtId ts last Hid Hts Hb r Ha.
  destruct (compressLogHeader_spec m p fmtId ts last Hid Hb) as (A & B & _).
  fold r in A, B.
  pose proof (hbytes_zlen fmtId ts last Hid).
  assert (load m' p (length (hbytes fmtId ts last)) = hbytes fmtId ts last) as Hl.
  { rewrite <- A at 2. apply load_ext. intros. apply Ha. unfold zlen in *. lia. }
  split; [|split].
  - rewrite B. now apply decompressLogHeader_spec.
  - unfold hbytes in Hl. cbn [app length load] in Hl.
    apply (f_equal (hd 0)) in Hl. cbn [hd] in Hl. rewrite Hl.
    pose proof (num_bytes_u32 fmtId Hid). lia.
  - lia.
Qed.
Print Assumptions C05_header_roundtrip.

Example C05_instance :
  let r := compressLogHeader (fun _ => 255) 7 70000 5 (2 ^ 63 + 9) in
  decompressLogHeader (lh_mem r) 7 (2 ^ 63 + 9) = Some (70000, 5, lh_pos r) /\ lh_pos r = 19.
Proof. vm_compute. auto. Qed.

(** C06.  The reported size should be the emitted size; it is not when the
    timestamp delta needs eight bytes: the size code 8 is masked to 0. *)
Definition reported_size_exact : Prop := forall m p fmtId ts last,
  0 <= fmtId < 2 ^ 32 -> 0 <= ts < 2 ^ 64 -> is_byte (m p) ->
  lh_ret (compressLogHeader m p fmtId ts last)
  = lh_pos (compressLogHeader m p fmtId ts last) - p.

Theorem C06_reported_size_refuted : ~ reported_size_exact.
Proof.
  intro H. specialize (H (fun _ => 0) 0 0 (2 ^ 60) 0).
  assert (lh_ret (compressLogHeader (fun _ => 0) 0 0 (2 ^ 60) 0) = 2) as E1 by (vm_compute; reflexivity).
  assert (lh_pos (compressLogHeader (fun _ => 0) 0 0 (2 ^ 60) 0) = 10) as E2 by (vm_compute; reflexivity).
  rewrite E1, E2 in H. unfold is_byte in H. lia.
Qed.

(** What does hold: exact for every delta within 56 bits, and otherwise short by
    exactly eight. *)
Theorem C06_reported_size_partial : forall m p fmtId ts last,
  0 <= fmtId < 2 ^ 32 -> 0 <= ts < 2 ^ 64 -> is_byte (m p) ->
  let r := compressLogHeader m p fmtId ts last in
  let delta := to_s 64 (ts - last) in
  lh_pos r - p = lh_ret r + (if (- 2 ^ 56 <? delta) && (delta <? 2 ^ 56) then 0 else 8).
Proof.
  intros m p fmtId ts last Hid Hts Hb r delta.
  destruct (compressLogHeader_spec m p fmtId ts last Hid Hb) as (_ & B & C & _).
  fold r in B, C. rewrite B, C. clear B C.
  fold (hdelta ts last) in delta. fold delta.
  pose proof (hdelta_wf ts last) as Hd. fold delta in Hd. cbn [wf_pval] in Hd.
  unfold hbytes. fold delta. rewrite !zlen_app, zlen_cons, zlen_nil, ubytes_zlen.
  cbn [pbytes pcode].
  destruct ((0 <=? delta) || (delta <=? - 2 ^ 56)) eqn:E; rewrite ubytes_zlen.
  - destruct ((- 2 ^ 56 <? delta) && (delta <? 2 ^ 56)) eqn:E2.
    + assert (delta mod 2 ^ 64 = delta) as -> by (apply Z.mod_small; lia).
      assert (num_bytes delta <= 7) by (apply num_bytes_le; lia).
      pose proof (num_bytes_range delta). rewrite Z.mod_small by lia. lia.
    + assert (2 ^ 56 <= delta mod 2 ^ 64 < 2 ^ 64).
      { destruct (Z_le_dec 0 delta); [rewrite Z.mod_small by lia; lia|].
        assert (delta mod 2 ^ 64 = delta + 2 ^ 64) as -> by lia. lia. }
      assert (num_bytes (delta mod 2 ^ 64) = 8) as ->.
      { pose proof (num_bytes_range (delta mod 2 ^ 64)).
        pose proof (num_bytes_fits (delta mod 2 ^ 64) ltac:(lia)).
        destruct (Z_le_dec (num_bytes (delta mod 2 ^ 64)) 7); [|lia].
        assert (256 ^ num_bytes (delta mod 2 ^ 64) <= 256 ^ 7) by (apply Z.pow_le_mono_r; lia).
        change (256 ^ 7) with (2 ^ 56) in *. lia. }
      change (8 mod 8) with 0. lia.
  - replace ((- 2 ^ 56 <? delta) && (delta <? 2 ^ 56)) with true by lia.
    assert (num_bytes (- delta) <= 7) by (apply num_bytes_le; lia).
    pose proof (num_bytes_range (- delta)). lia.
Qed.
Print Assumptions C06_reported_size_refuted.
Print Assumptions C06_reported_size_partial.

Example C06_instance : let r := compressLogHeader (fun _ => 0) 0 3 1000 0 in
  lh_ret r = 4 /\ lh_pos r = 4.
Proof. vm_compute. auto. Qed.
