(** Model of the measurement of the clock's frequency, runtime/Cycles.cc:39-87.
    Doubles as in TimeFmt.v. *)
From Coq Require Import QArith.
From Verif Require Import Base TimeFmt.

(** The results of a gettimeofday and of the rdtsc after it. *)
Record reading := Reading { rd_sec : Z; rd_usec : Z; rd_tsc : Z }.

(** Line 69; a uint64_t. *)
Definition elapsed (a b : reading) : Z :=
  to_u 64 ((rd_usec b - rd_usec a) + (rd_sec b - rd_sec a) * 1000000).

(** Lines 72-74. *)
Definition rate (a b : reading) : Q :=
  rnd (rnd (1000000 * rnd (inject_Z (to_u 64 (rd_tsc b - rd_tsc a)))) / rnd (inject_Z (elapsed a b))).

(** The inner loop, lines 63-77, for the readings to come: the rate and the readings
    left.  [None]: it has not come to its end. *)
Fixpoint measure (start : reading) (rs : list reading) : option (Q * list reading) :=
  match rs with
  | [] => None
  | r :: rs' => if (10000 <? elapsed start r)%Z then Some (rate start r, rs') else measure start rs'
  end.

(** Lines 78-82. *)
Definition agrees (oldCycles cyclesPerSec : Q) : bool :=
  let delta := rnd (cyclesPerSec / 100000) in
  negb (Qle_bool oldCycles (rnd (cyclesPerSec - delta))) && negb (Qle_bool (rnd (cyclesPerSec + delta)) oldCycles).

(** The outer loop, lines 57-84, at most [fuel] times. *)
Fixpoint calibrate (fuel : nat) (oldCycles : Q) (rs : list reading) : option Q :=
  match fuel, rs with
  | S f, start :: rs' =>
    match measure start rs' with
    | None => None
    | Some (cyclesPerSec, rs'') => if agrees oldCycles cyclesPerSec then Some cyclesPerSec else calibrate f cyclesPerSec rs''
    end
  | _, _ => None
  end.

(** Cycles::init. *)
Definition init (rs : list reading) : option Q := calibrate (length rs) 0 rs.
