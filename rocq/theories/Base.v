(** Byte lists, little-endian words and byte-addressed memory.

    These are the carriers of the model: a byte, a character, a machine word
    and a buffer offset are all [Z]; a memory object is a total function from
    offsets to bytes.  Nothing here is specific to NanoLog. *)
From Coq Require Export List ZArith Lia Bool.
Export ListNotations.
Open Scope Z_scope.

Ltac Zify.zify_post_hook ::= Z.div_mod_to_equations.

(** Length of a list as a [Z]. *)
Definition zlen {A} (l : list A) : Z := Z.of_nat (length l).

(** x86-64 stores the least significant byte first; this is what
    [std::memcpy(dst, &val, n)] leaves at [dst] (e.g. runtime/Packer.h:126). *)
Fixpoint le_bytes (n : nat) (v : Z) : list Z :=
  match n with
  | O => []
  | S k => v mod 256 :: le_bytes k (v / 256)
  end.

(** The unsigned value of a little-endian byte list. *)
Fixpoint le_val (bs : list Z) : Z :=
  match bs with
  | [] => 0
  | b :: t => b + 256 * le_val t
  end.

Definition is_byte (b : Z) : Prop := 0 <= b < 256.

(** Memory objects. *)
Definition mem := Z -> Z.

(** [n] bytes starting at [a]. *)
Fixpoint load (m : mem) (a : Z) (n : nat) : list Z :=
  match n with
  | O => []
  | S k => m a :: load m (a + 1) k
  end.

(** [memcpy] of a byte list to offset [a]. *)
Definition store (m : mem) (a : Z) (bs : list Z) : mem :=
  fun x => if (a <=? x) && (x <? a + zlen bs)
           then nth (Z.to_nat (x - a)) bs 0
           else m x.

(** C++ integer conversions on a two's complement machine: to an unsigned /
    signed integer of [n] bits. *)
Definition to_u (n : Z) (v : Z) : Z := v mod 2 ^ n.
Definition to_s (n : Z) (v : Z) : Z :=
  let u := v mod 2 ^ n in if u <? 2 ^ (n - 1) then u else u - 2 ^ n.

(** An integer type: signedness and size in bytes. *)
Record ity := Ity { it_signed : bool; it_bytes : nat }.

Definition it_bits (t : ity) : Z := 8 * Z.of_nat (it_bytes t).

(** [static_cast<T>(v)]. *)
Definition cast (t : ity) (v : Z) : Z :=
  if it_signed t then to_s (it_bits t) v else to_u (it_bits t) v.

(** Values representable in the type. *)
Definition in_range (t : ity) (v : Z) : Prop :=
  if it_signed t
  then - 2 ^ (it_bits t - 1) <= v < 2 ^ (it_bits t - 1)
  else 0 <= v < 2 ^ (it_bits t).

(** [n] bytes at [o] in [m] are found again at [o'] in [m']. *)
Definition moved (m : mem) (o : Z) (m' : mem) (o' : Z) (n : Z) : Prop :=
  forall i, 0 <= i < n -> m' (o' + i) = m (o + i).
