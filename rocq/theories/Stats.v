(** Model of the aggregations in runtime/LogDecompressor.cc. *)
From Verif Require Import Base LogMsg.

(** ** minMaxMean, LogDecompressor.cc:289-330 *)

(** A message as getNextLogStatement leaves it in the LogMessage: its id, its
    time, and what was pushed (with the memory malloc would return). *)
Record emsg := EMsg { em_id : Z; em_ts : Z; em_args : list (list Z * mem) }.
Definition em_ops (m : emsg) : list lop :=
  LReset (Some 0) (em_id m) (em_ts m) :: map (fun '(bs, j) => LPush bs j) (em_args m).

(** The variables; longs. *)
Record agg := Agg { ag_total : Z; ag_count : Z; ag_max : Z; ag_min : Z; ag_logs : Z }.
Definition agg_init : agg := Agg 0 0 0 0 0.

(** One turn of the loop after the message has been stored; [None]: signed
    overflow or a read outside of the LogMessage. *)
Definition agg_step (filterId : Z) (s : lmsg) (a : agg) : option agg :=
  let logs := to_u 64 (ag_logs a + 1) in
  if negb (to_s 32 (lm_id s) =? filterId) then Some (Agg (ag_total a) (ag_count a) (ag_max a) (ag_min a) logs)
  else
    match lm_get s 0 4 with
    | None => None
    | Some bs =>
      let elem := to_s 32 (le_val bs) in
      let max0 := if ag_count a =? 0 then elem else ag_max a in
      let min0 := if ag_count a =? 0 then elem else ag_min a in
      let max1 := if max0 <? elem then elem else max0 in
      let min1 := if elem <? min0 then elem else min0 in
      let total := ag_total a + elem in
      if (- 2 ^ 63 <=? total) && (total <? 2 ^ 63) && (ag_count a + 1 <? 2 ^ 63)
      then Some (Agg total (ag_count a + 1) max1 min1 logs) else None
    end.

Fixpoint agg_loop (filterId : Z) (ms : list emsg) (s : lmsg) (a : agg) : option agg :=
  match ms with
  | [] => Some a
  | m :: r =>
    match lm_run s (em_ops m) with
    | None => None
    | Some s' => match agg_step filterId s' a with Some a' => agg_loop filterId r s' a' | None => None end
    end
  end.

(** What is printed; [None]: undefined behaviour, here also the division by
    zero. *)
Record report := Report { rp_logs : Z; rp_count : Z; rp_min : Z; rp_max : Z; rp_mean : Z; rp_total : Z }.
Definition minMaxMean (filterId : Z) (ms : list emsg) : option report :=
  match agg_loop filterId ms lm_init agg_init with
  | None => None
  | Some a =>
    if ag_count a =? 0 then None
    else Some (Report (ag_logs a) (ag_count a) (ag_min a) (ag_max a) (Z.quot (ag_total a) (ag_count a)) (ag_total a))
  end.

(** ** rcdfTime, LogDecompressor.cc:81-113 and 232-247 *)

(** The differences of successive time stamps. *)
Fixpoint deltas (last : Z) (ts : list Z) : list Z :=
  match ts with
  | [] => []
  | t :: r => to_u 64 (t - last) :: deltas t r
  end.
Definition interLogTimes (ts : list Z) : list Z :=
  match ts with [] => [] | t :: r => deltas t r end.

(** Lines: a latency and the number of operations, [n - i] where the code prints
    [1.0 - i/n].  [i]: index of the first element of the list. *)
Fixpoint rcdf_loop (bound n i lastPrinted : Z) (l : list Z) : list (Z * Z) :=
  match l with
  | [] => []
  | d :: r =>
    if bound <? to_u 64 (d - lastPrinted) then (lastPrinted, n - i) :: rcdf_loop bound n (i + 1) d r
    else rcdf_loop bound n (i + 1) lastPrinted r
  end.

(** runRCDF on the sorted vector: the lines and the mean in cycles; [None]:
    front() of an empty vector. *)
Definition runRCDF (bound : Z) (sorted : list Z) : option (list (Z * Z) * Z) :=
  match sorted with
  | [] => None
  | d0 :: r =>
    let n := zlen sorted in
    let sum := fold_left (fun s d => to_u 64 (s + d)) r 0 in
    Some ((d0, n) :: rcdf_loop bound n 1 d0 r ++ [(last sorted 0, 1)], sum / n)
  end.
