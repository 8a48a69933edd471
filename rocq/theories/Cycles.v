(** Model of the conversions between cycles and time, runtime/Cycles.cc, with
    cyclesPerSec not 0.  Doubles as in TimeFmt.v. *)
From Coq Require Import QArith Qabs Qround.
From Verif Require Import Base TimeFmt.

(** (uint64_t) of a double: undefined outside of the type's range. *)
Definition to_uint64 (x : Q) : option Z :=
  let n := qtrunc x in if (0 <=? n)%Z && (n <? 2 ^ 64)%Z then Some n else None.

(** fromSeconds, Cycles.cc:138-144. *)
Definition fromSeconds (seconds cyclesPerSec : Q) : option Z :=
  to_uint64 (rnd (rnd (seconds * cyclesPerSec) + (1 # 2))).

(** toNanoseconds, 180-186. *)
Definition toNanoseconds (cycles : Z) (cyclesPerSec : Q) : option Z :=
  to_uint64 (rnd (rnd (rnd (1000000000 * rnd (inject_Z cycles)) / cyclesPerSec) + (1 # 2))).

(** toMicroseconds, 160-164. *)
Definition toMicroseconds (cycles : Z) (cyclesPerSec : Q) : option Z :=
  option_map (fun ns => (ns / 1000)%Z) (toNanoseconds cycles cyclesPerSec).

(** fromNanoseconds, 201-207. *)
Definition fromNanoseconds (ns : Z) (cyclesPerSec : Q) : option Z :=
  to_uint64 (rnd (rnd (rnd (rnd (inject_Z ns) * cyclesPerSec) / 1000000000) + (1 # 2))).
