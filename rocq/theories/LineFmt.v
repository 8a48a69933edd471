(** Model of the text of the decompressor's output: the context in front of a
    message, runtime/Log.cc:1348-1368 and 1413-1422 (also 1374-1382), the end of
    the line, 1664-1665, and the line for a new execution, 1763, 1877 and 2030. *)
From Coq Require Import QArith.
From Verif Require Import Base Chars Preproc Decoder FileSpec TimeFmt.

(** ** localtime and strftime
    The proleptic Gregorian calendar from 1970 on, one day after the other.
    [zone t] is how far local time is ahead of UTC at the time [t], in seconds.
    Local times before 1970 are not modelled. *)
Record date := Date { da_year : Z; da_month : Z; da_day : Z }.

Definition leap (y : Z) : bool := (y mod 4 =? 0) && (negb (y mod 100 =? 0) || (y mod 400 =? 0)).

Definition days_in (y m : Z) : Z :=
  if m =? 2 then (if leap y then 29 else 28)
  else if (m =? 4) || (m =? 6) || (m =? 9) || (m =? 11) then 30 else 31.

Definition next_day (d : date) : date :=
  if da_day d <? days_in (da_year d) (da_month d) then Date (da_year d) (da_month d) (da_day d + 1)
  else if da_month d <? 12 then Date (da_year d) (da_month d + 1) 1
  else Date (da_year d + 1) 1 1.

Definition date_of (days : Z) : date := Z.iter days next_day (Date 1970 1 1).

(** A number with at least [w] digits. *)
Definition padded (w : nat) (n : Z) : list Z := let t := dec_str n in repeat 48 (w - length t) ++ t.

(** strftime "%Y-%m-%d %H:%M:%S", Log.cc:1368. *)
Definition time_string (zone : Z -> Z) (absTime : Z) : option (list Z) :=
  let t := absTime + zone absTime in
  if t <? 0 then None
  else
    let d := date_of (t / 86400) in
    let s := t mod 86400 in
    Some (padded 4 (da_year d) ++ chars "-" ++ padded 2 (da_month d) ++ chars "-" ++ padded 2 (da_day d) ++ chars " " ++
          padded 2 (s / 3600) ++ chars ":" ++ padded 2 (s / 60 mod 60) ++ chars ":" ++ padded 2 (s mod 60)).

(** ** The line *)

(** A double of a checkpoint, little endian (IEEE 754 binary64); [None]: infinite
    or not a number. *)
Definition double_of (bs : list Z) : option Q :=
  let w := le_val bs in
  let e := w / 2 ^ 52 mod 2048 in
  let f := w mod 2 ^ 52 in
  let s := if 2 ^ 63 <=? w then -1 else 1 in
  if e =? 2047 then None
  else if e =? 0 then Some (inject_Z (s * f) * pow2 (-1074))%Q
  else Some (inject_Z (s * (2 ^ 52 + f)) * pow2 (e - 1075))%Q.

(** logLevelNames, Log.cc:31-32; [None]: read out of its bounds. *)
Definition logLevelNames : list (list Z) := [chars "(none)"; chars "ERROR"; chars "WARNING"; chars "NOTICE"; chars "DEBUG"].

(** "%s.%09.0lf %s:%u %s[%u]: ", the message and "\r\n". *)
Definition line_text (zone : Z -> Z) (l : oline) : option (list Z) :=
  match l with
  | LNewExecution => Some ([13; 10] ++ chars "# New execution started" ++ [13; 10])
  | LMsg sh =>
    match double_of (cp_cps (sh_cp sh)) with
    | None => None
    | Some cps =>
      let '(absTime, nanos) := abs_time (TimeBase (cp_rdtsc (sh_cp sh)) (cp_unixTime (sh_cp sh)) cps) (sh_ts sh) in
      match time_string zone absTime, nth_error logLevelNames (Z.to_nat (sh_level sh)) with
      | Some time, Some level =>
        Some (time ++ chars "." ++ nanos_text nanos ++ chars " " ++ sh_file sh ++ chars ":" ++ dec_str (sh_line sh) ++ chars " " ++
              level ++ chars "[" ++ dec_str (sh_tid sh) ++ chars "]: " ++ sh_text sh ++ [13; 10])
      | _, _ => None
      end
    end
  end.
