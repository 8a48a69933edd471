(** Model of the counters behind NanoLog::getStats, runtime/RuntimeLogger.cc:139-230,
    of the running system in Runtime.v.  The times measured are left out. *)
From Coq Require Import QArith.
From Verif Require Import Base Encoder Ring Runtime.
Local Open Scope Z_scope.

(** totalBytesRead, totalBytesWritten, padBytesWritten, logsProcessed (uint64_t) and
    numAioWritesCompleted (uint32_t), RuntimeLogger.h:232-262. *)
Record counts := Counts { n_read : Z; n_written : Z; n_pad : Z; n_logs : Z; n_writes : Z }.

(** RuntimeLogger.cc:64-68. *)
Definition no_counts : counts := Counts 0 0 0 0 0.

(** A call of encodeLogMsgs, RuntimeLogger.cc:443-474: logsProcessed is added to in
    Log.cc:398-399, totalBytesRead in line 472 (not if 0 was returned). *)
Definition note_chunk (t : rt) (c : counts) : counts :=
  match nth_error (t_bufs t) (Z.to_nat (t_ki t)) with
  | None => c
  | Some b =>
    match c_pc (r_c (b_ring b)) with
    | CHave n =>
      if n =? 0 then c
      else
        let '(_, read, cnt) :=
          encodeLogMsgs (t_en t) (s_data (r_mem (b_ring b))) (c_pos (r_c (b_ring b))) (Z.min RELEASE n) (b_id b) (t_kwrap t) (t_shadow t) in
        Counts (to_u 64 (n_read c + read)) (n_written c) (n_pad c) (to_u 64 (n_logs c + cnt)) (n_writes c)
    | _ => c
    end
  end.

(** RuntimeLogger.cc:577; also 341. *)
Definition note_finish (c : counts) : counts :=
  Counts (n_read c) (n_written c) (n_pad c) (n_logs c) (to_u 32 (n_writes c + 1)).

(** RuntimeLogger.cc:598-613, for [n] bytes; [direct]: O_DIRECT is set. *)
Definition padding (direct : bool) (n : Z) : Z := if direct && negb (n mod 512 =? 0) then 512 - n mod 512 else 0.
Definition note_write (direct : bool) (n : Z) (c : counts) : counts :=
  Counts (n_read c) (to_u 64 (n_written c + (n + padding direct n))) (to_u 64 (n_pad c + padding direct n)) (n_logs c) (n_writes c).

(** What a step of the running system counts. *)
Definition count (l : rlabel) (t : rt) (c : counts) : counts :=
  match l with
  | RThread =>
    match t_kpc t with
    | KEnc => note_chunk t c
    | KIo => match t_flight t with [] => if t_outst t then note_finish c else c | _ => c end
    | KWrite => if encoded t =? 0 then c else note_write false (encoded t) c
    | _ => c
    end
  | RInterrupt => note_finish c
  | _ => c
  end.

(** RuntimeLogger.cc:220-227: the compression ratios; [None]: division by zero, which
    prints inf or nan.  Doubles are taken to be exact here: the numbers are below 2^53. *)
Definition quotient (a b : Z) : option Q := if b =? 0 then None else Some (inject_Z a / inject_Z b)%Q.
Definition ratio_low (c : counts) : option Q := quotient (n_read c) (n_written c + n_pad c).
Definition ratio_high (c : counts) : option Q := quotient (n_read c) (n_written c).
