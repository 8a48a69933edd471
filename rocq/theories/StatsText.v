(** Model of the text of RuntimeLogger::getStats, runtime/RuntimeLogger.cc:140-232;
    its counts are in Counters.v, doubles as in TimeFmt.v. *)
From Coq Require Import QArith Qabs.
From Verif Require Import Base Chars Preproc TimeFmt RcdfText Ring Runtime Counters.
Open Scope Z_scope.

(** cyclesDiskIO_upperBound, cyclesCompressing, cyclesActive, cycleAtThreadStart. *)
Record timers := Timers { t_io : Z; t_compressing : Z; t_active : Z; t_born : Z }.

(** A division of doubles; [None]: by 0, which gives an infinity or no number. *)
Definition fdiv (a b : Q) : option Q := if Qeq_bool b 0 then None else Some (rnd (a / b)).

Definition bind {A B} (o : option A) (f : A -> option B) : option B := match o with Some a => f a | None => None end.

(** snprintf(buffer, 1024, ...). *)
Definition cut (l : list Z) : list Z := firstn (Z.to_nat 1023) l.

(** [start], [stop], [now]: what rdtsc returns at lines 145, 147 and 183.  Second
    component: cyclesDiskIO_upperBound after line 148. *)
Definition getStats (cps : Q) (c : counts) (t : timers) (start stop now : Z) : option (list Z * Z) :=
  let synced := to_u 64 (stop - start) in
  let io := to_u 64 (t_io t + synced) in
  let outputTime := toSeconds io cps in
  let compressTime := toSeconds (t_compressing t) cps in
  let workTime := rnd (outputTime + compressTime) in
  let written := rnd (inject_Z (n_written c)) in
  let read := rnd (inject_Z (n_read c)) in
  let pad := rnd (inject_Z (n_pad c)) in
  let events := rnd (inject_Z (n_logs c)) in
  let mb := rnd (written / 1000000) in
  let awake := toSeconds (t_active t) cps in
  let alive := toSeconds (to_u 64 (now - t_born t)) cps in
  bind (fdiv (rnd (100 * awake)) alive) (fun activePercent =>
  bind (fdiv mb workTime) (fun mbWork =>
  bind (fdiv (rnd (workTime * 1000000000)) written) (fun nsWork =>
  bind (fdiv mb outputTime) (fun mbDisk =>
  bind (fdiv (rnd (outputTime * 1000000000)) written) (fun nsDisk =>
  bind (fdiv mb (rnd (inject_Z (n_writes c)))) (fun mbFlush =>
  bind (fdiv (rnd (written * 1)) events) (fun perEvent =>
  bind (fdiv (rnd (workTime * 1000000000)) events) (fun nsEvent =>
  bind (fdiv (rnd (compressTime * 1000000000)) events) (fun nsCompress =>
  bind (fdiv (rnd (1 * read)) (rnd (written + pad))) (fun low =>
  bind (fdiv (rnd (1 * read)) written) (fun high =>
  Some (concat (map cut [
    [13; 10] ++ chars "Wrote " ++ dec_str (n_logs c) ++ chars " events (" ++ fixedp 2 0 mb ++ chars " MB) in " ++ fixedp 3 0 workTime ++
      chars " seconds (" ++ fixedp 3 0 compressTime ++ chars " seconds spent compressing)" ++ [13; 10];
    chars "There were " ++ dec_str (n_writes c) ++ chars " file flushes and the final sync time was " ++ fixedp 6 0 (toSeconds synced cps) ++ chars " sec" ++ [13; 10];
    chars "Compression Thread was active for " ++ fixedp 3 0 awake ++ chars " out of " ++ fixedp 3 0 alive ++ chars " seconds (" ++ fixedp 2 0 activePercent ++ chars " %)" ++ [13; 10];
    chars "On average, that's" ++ [13; 10; 9] ++ fixedp 2 0 mbWork ++ chars " MB/s or " ++ fixedp 2 0 nsWork ++ chars " ns/byte w/ processing" ++ [13; 10];
    [9] ++ fixedp 2 0 mbDisk ++ chars " MB/s or " ++ fixedp 2 0 nsDisk ++ chars " ns/byte disk throughput (min)" ++ [13; 10];
    [9] ++ fixedp 2 0 mbFlush ++ chars " MB per flush with " ++ fixedp 1 0 perEvent ++ chars " bytes/event" ++ [13; 10];
    [9] ++ fixedp 2 0 nsEvent ++ chars " ns/event in total" ++ [13; 10; 9] ++ fixedp 2 0 nsCompress ++ chars " ns/event compressing" ++ [13; 10];
    chars "The compression ratio was " ++ fixedp 2 0 low ++ chars "-" ++ fixedp 2 0 high ++ chars "x (" ++ dec_str (n_read c) ++ chars " bytes in, " ++
      dec_str (n_written c) ++ chars " bytes out, " ++ dec_str (n_pad c) ++ chars " pad bytes)" ++ [10]]), io)))))))))))).
