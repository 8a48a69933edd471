(** Model of what runRCDF prints, runtime/LogDecompressor.cc:81-113, for the sorted
    vector; its numbers are in Stats.v.  Line numbers are those of
    LogDecompressor.cc, doubles as in TimeFmt.v. *)
From Coq Require Import QArith Qabs.
From Verif Require Import Base Chars Preproc TimeFmt LineFmt Cycles.
Open Scope Z_scope.

(** printf's "%w.plf", p > 0: correctly rounded, ties to even, as glibc does. *)
Definition fixedp (p w : nat) (x : Q) : list Z :=
  let t := rhe (inject_Z (10 ^ Z.of_nat p) * Qabs x) in
  let body := dec_str (t / 10 ^ Z.of_nat p) ++ [46] ++ padded p (t mod 10 ^ Z.of_nat p) in
  let body' := if Qlt_le_dec x 0 then 45 :: body else body in
  repeat 32 (w - length body') ++ body'.

(** 1e9*toSeconds(cycles, cyclesPerSecond). *)
Definition latency (cps : Q) (d : Z) : Q := rnd (1000000000 * toSeconds d cps).

(** Lines 92-94, 100-102, 107-109. *)
Definition rcdf_line (cps : Q) (d : Z) (fraction : Q) : list Z :=
  fixedp 2 8 (latency cps d) ++ chars "    " ++ fixedp 10 11 fraction ++ [13; 10].

(** Lines 97-105. *)
Fixpoint rcdf_print (bound : Z) (cps size : Q) (i lastPrinted : Z) (l : list Z) : list Z :=
  match l with
  | [] => []
  | d :: r =>
    if bound <? to_u 64 (d - lastPrinted)
    then rcdf_line cps lastPrinted (rnd (1 - rnd (rnd (inject_Z i) / size))) ++ rcdf_print bound cps size (i + 1) d r
    else rcdf_print bound cps size (i + 1) lastPrinted r
  end.

(** Line 89: bound; 1.0e-10 is a double. *)
Definition rcdf_bound (cps : Q) : option Z := fromSeconds (rnd (1 # 10000000000)) cps.

Definition rcdf_head : list Z :=
  chars "# Aggregating..." ++ [13; 10] ++ chars "# Done; printing rcdf" ++ [13; 10] ++ chars "#   Latency     Percentage of Operations" ++ [13; 10].

(** [None]: bound is out of range, or front() of an empty vector. *)
Definition rcdf_text (cps : Q) (sorted : list Z) : option (list Z) :=
  match rcdf_bound cps, sorted with
  | Some bound, d0 :: r =>
    let size := rnd (inject_Z (zlen sorted)) in
    let sum := fold_left (fun s d => to_u 64 (s + d)) r 0 in
    Some (rcdf_head ++ rcdf_line cps d0 1 ++ rcdf_print bound cps size 1 d0 r ++ rcdf_line cps (last sorted 0) (rnd (1 / size)) ++
      [13; 10] ++ chars "# The mean was " ++ fixedp 2 0 (latency cps (sum / zlen sorted)) ++ chars " ns" ++ [13; 10])
  | _, _ => None
  end.
