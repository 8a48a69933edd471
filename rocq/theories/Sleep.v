(** Model of Cycles::sleep, runtime/Cycles.cc:221-225, with the measured frequency as
    a parameter.  The counter is what rdtsc() returned one time after the other. *)
From Coq Require Import QArith.
From Verif Require Import Base TimeFmt Cycles.
Open Scope Z_scope.

(** Line 223: the arguments of + are uint64_t, and so is 1000*us. *)
Definition sleep_stop (us : Z) (cps : Q) (t0 : Z) : option Z :=
  option_map (fun c => to_u 64 (t0 + c)) (fromNanoseconds (to_u 64 (1000 * us)) cps).

(** Line 224: the readings that kept it waiting, and the others: the first of them
    ends the loop. *)
Fixpoint wait (stop : Z) (readings : list Z) : list Z * list Z :=
  match readings with
  | [] => ([], [])
  | t :: r => if t <? stop then let '(w, rest) := wait stop r in (t :: w, rest) else ([], readings)
  end.

Definition sleep (us : Z) (cps : Q) (t0 : Z) (readings : list Z) : option (list Z * list Z) :=
  option_map (fun stop => wait stop readings) (sleep_stop us cps t0).
