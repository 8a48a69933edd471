(** Model of runtime/Packer.h (namespace BufferUtils). *)
From Verif Require Import Base.

(** What [pack] can be called with, by overload:
    - [PUns n v]: an unsigned integral type (or bool) of [n] bytes
      (runtime/Packer.h:95-98);
    - [PS32 v]: int32_t (145-146); overload resolution also sends char, signed
      char, short and wchar_t here by integral promotion;
    - [PS64 v]: int64_t and long long (154-155, 165-166), whose bodies agree;
    - [PPtr v]: any pointer (208-210);
    - [PFlt bs]: float, double, long double given by their object
      representation of 4, 8 or 16 bytes (225-227). *)
Inductive pval :=
| PUns (n : nat) (v : Z)
| PS32 (v : Z)
| PS64 (v : Z)
| PPtr (v : Z)
| PFlt (bs : list Z).

(** Width selection of the unsigned [pack], runtime/Packer.h:104-121. *)
Definition num_bytes (v : Z) : Z :=
  if v <? 2 ^ 8 then 1
  else if v <? 2 ^ 16 then 2
  else if v <? 2 ^ 24 then 3
  else if v <? 2 ^ 32 then 4
  else if v <? 2 ^ 40 then 5
  else if v <? 2 ^ 48 then 6
  else if v <? 2 ^ 56 then 7
  else 8.

(** A packing function gets the memory and the cursor [*buffer] and returns the
    new memory, the bumped cursor, the returned code and the bytes it stored at
    the old cursor (needed to state that it stays in bounds: the unsigned
    version stores [sizeof(T)] bytes but bumps by fewer). *)
Record packed := Packed { pk_mem : mem; pk_pos : Z; pk_code : Z; pk_touched : Z }.

(** [pack<T>] for an unsigned T of [n] bytes, runtime/Packer.h:95-130. *)
Definition pack_unsigned (n : nat) (m : mem) (p : Z) (v : Z) : packed :=
  let nb := num_bytes v in
  Packed (store m p (le_bytes n v)) (p + nb) nb (p + Z.of_nat n).

Definition add_code (k : Z) (r : packed) : packed :=
  Packed (pk_mem r) (pk_pos r) (k + pk_code r) (pk_touched r).

(** [pack(char**, int32_t)], runtime/Packer.h:145-152. *)
Definition pack_s32 (m : mem) (p : Z) (v : Z) : packed :=
  if (0 <=? v) || (v <=? - 2 ^ 24)
  then pack_unsigned 4 m p (to_u 32 v)
  else add_code 8 (pack_unsigned 4 m p (to_u 32 (- v))).

(** [pack(char**, int64_t)] and [pack(char**, long long)],
    runtime/Packer.h:154-172. *)
Definition pack_s64 (m : mem) (p : Z) (v : Z) : packed :=
  if (0 <=? v) || (v <=? - 2 ^ 56)
  then pack_unsigned 8 m p (to_u 64 v)
  else add_code 8 (pack_unsigned 8 m p (to_u 64 (- v))).

(** Pointer version of [pack], runtime/Packer.h:208-212. *)
Definition pack_ptr (m : mem) (p : Z) (v : Z) : packed := pack_unsigned 8 m p v.

(** [pack] of a floating point value, runtime/Packer.h:225-231. *)
Definition pack_float (m : mem) (p : Z) (bs : list Z) : packed :=
  Packed (store m p bs) (p + zlen bs) (zlen bs) (p + zlen bs).

Definition pack (m : mem) (p : Z) (x : pval) : packed :=
  match x with
  | PUns n v => pack_unsigned n m p v
  | PS32 v => pack_s32 m p v
  | PS64 v => pack_s64 m p v
  | PPtr v => pack_ptr m p v
  | PFlt bs => pack_float m p bs
  end.

(** [unpack<T>] for an integral T, runtime/Packer.h:247-265.  [packed] is an
    int64_t, so eight copied bytes are read as a signed value.  Returns the
    value and the bumped cursor.  (The test [packResult == 0] in line 260 can
    never succeed because codes up to 8 were handled before.) *)
Definition unpack_int (t : ity) (m : mem) (p : Z) (code : Z) : Z * Z :=
  if code <=? 8 then
    let packed := to_s 64 (le_val (load m p (Z.to_nat code))) in
    (cast t packed, p + code)
  else
    let bytes := if code =? 0 then 16 else (code - 8) mod 16 in
    let packed := to_s 64 (le_val (load m p (Z.to_nat bytes))) in
    (cast t (- packed), p + bytes).

(** Pointer version of [unpack], runtime/Packer.h:267-271. *)
Definition unpack_ptr (m : mem) (p : Z) (code : Z) : Z * Z :=
  unpack_int (Ity false 8) m p code.

(** Floating point values as seen by a consumer: a double object, a float
    widened to the destination type, or a long double object. *)
Inductive flt :=
| F64 (bs : list Z)
| F32w (bs : list Z)
| F80 (bs : list Z).

(** [unpack<T>] for T = double ([size] = 8) or long double ([size] = 16),
    runtime/Packer.h:273-290.  [None]: the [memcpy] overruns [result] or leaves
    part of it uninitialised. *)
Definition unpack_float (size : Z) (m : mem) (p : Z) (nibble : Z) : option (flt * Z) :=
  if nibble =? 4 then Some (F32w (load m p 4), p + 4)
  else
    let bytes := if nibble =? 0 then 16 else nibble in
    if bytes =? size then
      let bs := load m p (Z.to_nat bytes) in
      Some ((if size =? 8 then F64 bs else F80 bs), p + bytes)
    else None.

(** TwoNibbles: [first] is the low half, [second] the high half of the byte
    (runtime/Packer.h:75-80, GCC bit-field layout). *)
Definition nib_first (b : Z) : Z := b mod 16.
Definition nib_second (b : Z) : Z := (b / 16) mod 16.
Definition set_first (b v : Z) : Z := 16 * (b / 16) + v mod 16.
Definition set_second (b v : Z) : Z := b mod 16 + 16 * (v mod 16).

(** Contribution of one nibble to getSizeOfPackedValues,
    runtime/Packer.h:309-317. *)
Definition nib_size (n : Z) : Z :=
  n + (if n =? 0 then 16 else 0) - (if 8 <? n then 8 else 0).

(** The loop of getSizeOfPackedValues, runtime/Packer.h:307-318; uint32_t. *)
Fixpoint packed_pairs_size (m : mem) (a : Z) (pairs : nat) (size : Z) : Z :=
  match pairs with
  | O => size
  | S k => packed_pairs_size m (a + 1) k
             (to_u 32 (size + nib_size (nib_first (m a)) + nib_size (nib_second (m a))))
  end.

(** getSizeOfPackedValues, runtime/Packer.h:304-329. *)
Definition getSizeOfPackedValues (m : mem) (a : Z) (numNibbles : Z) : Z :=
  let size := packed_pairs_size m a (Z.to_nat (numNibbles / 2)) 0 in
  if Z.odd numNibbles
  then to_u 32 (size + nib_size (nib_first (m (a + numNibbles / 2))))
  else size.

(** class Nibbler, runtime/Packer.h:335-350. *)
Record nibbler := Nibbler {
  nb_pos : Z;          (* nibblePosition *)
  nb_first : bool;     (* onFirstNibble *)
  nb_cur : Z;          (* currPackedValue *)
  nb_end : Z           (* endOfValues *)
}.

(** Constructor, runtime/Packer.h:361-371. *)
Definition nibbler_init (m : mem) (a : Z) (numNibbles : Z) : nibbler :=
  Nibbler a true (a + (numNibbles + 1) / 2)
          (a + (numNibbles + 1) / 2 + getSizeOfPackedValues m a numNibbles).

(** getNext, runtime/Packer.h:381-396, split in the nibble it selects and the
    state after the value was unpacked up to [cur'].  The assertion of line 383
    is [nibbler_ready]. *)
Definition nibbler_ready (nb : nibbler) : bool := nb_cur nb <? nb_end nb.

Definition nibbler_code (m : mem) (nb : nibbler) : Z :=
  if nb_first nb then nib_first (m (nb_pos nb)) else nib_second (m (nb_pos nb)).

Definition nibbler_advance (nb : nibbler) (cur' : Z) : nibbler :=
  Nibbler (if nb_first nb then nb_pos nb else nb_pos nb + 1)
          (negb (nb_first nb)) cur' (nb_end nb).

Definition getNext_int (t : ity) (m : mem) (nb : nibbler) : option (Z * nibbler) :=
  if nibbler_ready nb then
    let '(v, p) := unpack_int t m (nb_cur nb) (nibbler_code m nb) in
    Some (v, nibbler_advance nb p)
  else None.

Definition getNext_ptr (m : mem) (nb : nibbler) : option (Z * nibbler) :=
  getNext_int (Ity false 8) m nb.

Definition getNext_float (size : Z) (m : mem) (nb : nibbler) : option (flt * nibbler) :=
  if nibbler_ready nb then
    match unpack_float size m (nb_cur nb) (nibbler_code m nb) with
    | Some (v, p) => Some (v, nibbler_advance nb p)
    | None => None
    end
  else None.

(** [nibbles[k/2].first/.second = 0xf & code], as done by every user of [pack]
    (runtime/NanoLogCpp17.h:809-812; generated code,
    preprocessor/FunctionGenerator.py:522). *)
Definition write_nibble (m : mem) (nibbles : Z) (k : Z) (code : Z) : mem :=
  let a := nibbles + k / 2 in
  store m a [if Z.odd k then set_second (m a) (Z.land 15 code)
             else set_first (m a) (Z.land 15 code)].

(** Packing values one after the other behind a nibble array that starts at
    [nibbles]; [k] is the index of the next nibble, [out] the cursor, [hi] the
    first byte never touched so far. *)
Fixpoint pack_seq (m : mem) (nibbles k out hi : Z) (xs : list pval) : mem * Z * Z :=
  match xs with
  | [] => (m, out, hi)
  | x :: xs' =>
      let r := pack m out x in
      pack_seq (write_nibble (pk_mem r) nibbles k (pk_code r)) nibbles (k + 1)
               (pk_pos r) (Z.max hi (pk_touched r)) xs'
  end.

(** Overload resolution for an argument of integer type [t]: unsigned types
    (and bool) take the template of runtime/Packer.h:95-98, 8-byte signed types
    the overloads of lines 154 and 165, all smaller signed types are promoted
    to int and take line 145. *)
Definition pval_of_int (t : ity) (v : Z) : pval :=
  if it_signed t
  then if Nat.eqb (it_bytes t) 8 then PS64 v else PS32 v
  else PUns (it_bytes t) v.
