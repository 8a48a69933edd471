(** Model of the distributions kept by runtime/RuntimeLogger: the sizes of the
    peeks of the background thread and the times a thread was blocked, and the
    report of both. *)
From Coq Require Import QArith.
From Verif Require Import Base Chars Preproc LineFmt Cycles Ring.
Local Open Scope Z_scope.

(** ** Counters *)

(** ++dist[i] for counters of [bits] bits, RuntimeLogger.cc:433 and 807; [None]: out
    of the array's bounds. *)
Fixpoint bump_at (bits : Z) (i : nat) (dist : list Z) : option (list Z) :=
  match dist, i with
  | [], _ => None
  | x :: r, O => Some (to_u bits (x + 1) :: r)
  | x :: r, S i' => option_map (cons x) (bump_at bits i' r)
  end.
Definition bump (bits i : Z) (dist : list Z) : option (list Z) :=
  if i <? 0 then None else bump_at bits (Z.to_nat i) dist.

(** stagingBufferPeekDist[20], RuntimeLogger.h:267, RuntimeLogger.cc:72-73, and
    cyclesProducerBlockedDist[20], RuntimeLogger.h:454, 415-419. *)
Definition new_dist : list Z := repeat 0 20.

(** ** The sizes of peeks *)

(** Lines 425-433 of RuntimeLogger.cc, after a peek that found [n] bytes in a buffer
    of [size]. *)
Definition peek_note (size n : Z) (dist : list Z) : option (list Z) :=
  if 0 <? n then bump 64 (to_u 64 (20 * n) / size) dist else Some dist.

(** The steps of Ring.v at which peek returns: what the consumer did before and
    after. *)
Definition peek_end (before after : cpc) : option Z :=
  match before, after with
  | CPeek _, CHave n => Some n
  | CRoll _, CHave n => Some n
  | _, _ => None
  end.

(** A run of Ring.v with stagingBufferPeekDist. *)
Fixpoint hist_run (size : Z) (ls : list label) (r : ring) (dist : list Z) : option (ring * list Z) :=
  match ls with
  | [] => Some (r, dist)
  | l :: ls' =>
    match ring_step size l r with
    | None => None
    | Some r' =>
      match match peek_end (c_pc (r_c r)) (c_pc (r_c r')) with Some n => peek_note size n dist | None => Some dist end with
      | None => None
      | Some dist' => hist_run size ls' r' dist'
      end
    end
  end.

(** ** The times a thread was blocked *)

(** The counters of a StagingBuffer, RuntimeLogger.h:440-459. *)
Record pstats := PStats { ps_cycles : Z; ps_times : Z; ps_allocs : Z; ps_dist : list Z }.
Definition new_stats : pstats := PStats 0 0 0 new_dist.

(** reserveProducerSpace, RuntimeLogger.h:334-343: the fast path ([None]), or
    reserveSpaceInternal, RuntimeLogger.cc:801-811, with RECORD_PRODUCER_STATS, after
    so many cycles.  [c10] is cyclesIn10Ns; [None]: division by zero. *)
Definition alloc (c10 : Z) (slow : option Z) (s : pstats) : option pstats :=
  let allocs := to_u 64 (ps_allocs s + 1) in
  match slow with
  | None => Some (PStats (ps_cycles s) (ps_times s) allocs (ps_dist s))
  | Some cyclesBlocked =>
    if c10 =? 0 then None
    else
      match bump 32 (Z.min (cyclesBlocked / c10) 19) (ps_dist s) with
      | None => None
      | Some dist => Some (PStats (to_u 64 (ps_cycles s + cyclesBlocked)) (to_u 32 (ps_times s + 1)) allocs dist)
      end
  end.

Fixpoint allocs (c10 : Z) (slow : list (option Z)) (s : pstats) : option pstats :=
  match slow with
  | [] => Some s
  | x :: r => match alloc c10 x s with Some s' => allocs c10 r s' | None => None end
  end.

(** ** getHistograms, RuntimeLogger.cc:243-306 *)

(** [%4lu]. *)
Definition wide (w : nat) (n : Z) : list Z := let t := dec_str n in repeat 32 (w - length t) ++ t.

Definition crlf : list Z := [13; 10].

(** Lines 254-261. *)
Definition peek_line (i count : Z) : list Z :=
  [9] ++ padded 2 (i * 100 / 20) ++ chars " - " ++ padded 2 ((i + 1) * 100 / 20) ++ chars "%: " ++ dec_str count ++ crlf.

(** Lines 284-293. *)
Definition block_line (i count : Z) : list Z :=
  [9; 9] ++ wide 4 (i * 10) ++ chars " - " ++ wide 4 ((i + 1) * 10) ++ chars " ns: " ++ dec_str count ++ crlf.

Fixpoint dist_lines (line : Z -> Z -> list Z) (i : Z) (dist : list Z) : list Z :=
  match dist with
  | [] => []
  | x :: r => line i x ++ dist_lines line (i + 1) r
  end.

(** Lines 264-296, for the thread [id], with RECORD_PRODUCER_STATS; [cps] is
    cyclesPerSec; [None]: division by zero.  The average is formatted (280-283) into
    the buffer the next line overwrites, so it is not in the report. *)
Definition thread_report (cps : Q) (id : Z) (s : pstats) : option (list Z) :=
  if ps_times s =? 0 then None
  else
    match toNanoseconds (ps_cycles s) cps with
    | None => None
    | Some _ =>
      Some (chars "Thread " ++ dec_str id ++ chars ":" ++ crlf ++
            [9] ++ chars "Allocations   : " ++ dec_str (ps_allocs s) ++ crlf ++
            [9] ++ chars "Times Blocked : " ++ dec_str (ps_times s) ++ crlf ++
            dist_lines block_line 0 (ps_dist s))
    end.

Fixpoint thread_reports (cps : Q) (ts : list (Z * pstats)) : option (list Z) :=
  match ts with
  | [] => Some []
  | (id, s) :: r =>
    match thread_report cps id s, thread_reports cps r with
    | Some a, Some b => Some (a ++ b)
    | _, _ => None
    end
  end.

Definition getHistograms (cps : Q) (peeks : list Z) (ts : list (Z * pstats)) : option (list Z) :=
  option_map (fun t => chars "Distribution of StagingBuffer.peek() sizes" ++ crlf ++ dist_lines peek_line 0 peeks ++ t)
    (thread_reports cps ts).
