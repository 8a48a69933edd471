(** Model of the time stamps in the output of the decompressor. *)
From Coq Require Import QArith Qabs Qround.
From Verif Require Import Base Chars Preproc.

(** ** Doubles
    A finite double is its value, a rational number; the operations round to 53
    bits, half to even (x86-64 SSE2 in the default mode).  The exponent range is
    not modelled: see DESIGN.md. *)

Definition pow2 (e : Z) : Q := if 0 <=? e then inject_Z (2 ^ e) else Qinv (inject_Z (2 ^ (- e))).

(** Nearest integer, ties to even. *)
Definition rhe (x : Q) : Z :=
  let f := Qfloor x in
  match Qcompare (x - inject_Z f) (1 # 2) with
  | Lt => f
  | Eq => if Z.even f then f else f + 1
  | Gt => f + 1
  end.

(** floor(log2 x) for x > 0. *)
Definition log2q (x : Q) : Z :=
  let k := Z.log2 (Qnum x) - Z.log2 (Zpos (Qden x)) in
  if Qle_bool (pow2 k) x then k else k - 1.

Definition rnd (x : Q) : Q :=
  if Qeq_bool x 0 then 0%Q
  else let u := pow2 (log2q (Qabs x) - 52) in Qmult (inject_Z (rhe (x / u))) u.

(** static_cast<int64_t> of a double: towards zero. *)
Definition qtrunc (x : Q) : Z := Z.quot (Qnum x) (Zpos (Qden x)).

(** Cycles::toSeconds, runtime/Cycles.cc:118-123 (with cyclesPerSec not 0): the
    parameter is an int64_t. *)
Definition toSeconds (cycles : Z) (cyclesPerSec : Q) : Q :=
  rnd (rnd (inject_Z (to_s 64 cycles)) / cyclesPerSec).

(** Checkpoint, runtime/Log.h:308-321: the members used here. *)
Record timebase := TimeBase { tb_rdtsc : Z; tb_unixTime : Z; tb_cps : Q }.

(** decompressNextLogStatement, Log.cc:1350-1364: absTime and nanos. *)
Definition abs_time (tb : timebase) (ts : Z) : Z * Q :=
  let secs := toSeconds (to_u 64 (ts - tb_rdtsc tb)) (tb_cps tb) in
  let whole := qtrunc secs in
  let nanos := rnd (1000000000 * rnd (secs - rnd (inject_Z whole))) in
  if Qlt_le_dec nanos 0
  then (whole - 1 + tb_unixTime tb, rnd (nanos + 1000000000))
  else (whole + tb_unixTime tb, nanos).

(** "%09.0lf", Log.cc:1375 and 1416. *)
Definition nanos_text (nanos : Q) : list Z :=
  let t := dec_str (rhe nanos) in repeat 48 (9 - length t) ++ t.
