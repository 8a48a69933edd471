(** Model of the log entry header codec of runtime/Log.h. *)
From Verif Require Import Base Packer.

(** Bit-fields of [w] bits at bit [off] of a byte (GCC allocates bit-fields
    from the least significant bit on x86-64). *)
Definition bf_get (b off w : Z) : Z := (b / 2 ^ off) mod 2 ^ w.
Definition bf_set (b off w v : Z) : Z := b + (v mod 2 ^ w - bf_get b off w) * 2 ^ off.

(** Assignment to a bit-field of the byte at [p]. *)
Definition bf_store (m : mem) (p off w v : Z) : mem := store m p [bf_set (m p) off w v].

(** EntryType, runtime/Log.h:203-218. *)
Definition ET_INVALID := 0.
Definition ET_LOG_MSGS_OR_DIC := 1.
Definition ET_BUFFER_EXTENT := 2.
Definition ET_CHECKPOINT := 3.

(** UnknownHeader.entryType, runtime/Log.h:225-230: the two low bits. *)
Definition entryType (b : Z) : Z := bf_get b 0 2.

Record lheader := LHeader { lh_mem : mem; lh_pos : Z; lh_ret : Z; lh_touched : Z }.

(** compressLogHeader, runtime/Log.h:530-548; CompressedEntry is one byte with
    fields entryType:2, additionalFmtIdBytes:2, additionalTimestampBytes:4
    (245-260). *)
Definition compressLogHeader (m : mem) (p : Z) (fmtId timestamp lastTimestamp : Z) : lheader :=
  let m1 := bf_store m p 0 2 ET_LOG_MSGS_OR_DIC in
  let r1 := pack m1 (p + 1) (PUns 4 fmtId) in
  let m2 := bf_store (pk_mem r1) p 2 2 (Z.land 3 (pk_code r1 - 1)) in
  let r2 := pack m2 (pk_pos r1) (PS64 (to_s 64 (timestamp - lastTimestamp))) in
  let m3 := bf_store (pk_mem r2) p 4 4 (Z.land 15 (pk_code r2)) in
  LHeader m3 (pk_pos r2)
          (1 + bf_get (m3 p) 2 2 + 1 + Z.land 7 (bf_get (m3 p) 4 4))
          (Z.max (pk_touched r1) (pk_touched r2)).

(** decompressLogHeader, runtime/Log.h:565-584: id, timestamp, new cursor. *)
Definition decompressLogHeader (m : mem) (p : Z) (lastTimestamp : Z) : option (Z * Z * Z) :=
  if entryType (m p) =? ET_LOG_MSGS_OR_DIC then
    let cre := m p in
    let '(logId, p1) := unpack_int (Ity false 4) m (p + 1) (bf_get cre 2 2 + 1) in
    let '(delta, p2) := unpack_int (Ity true 8) m p1 (bf_get cre 4 4) in
    Some (logId, to_u 64 (to_u 64 delta + lastTimestamp), p2)
  else None.
