(** Model of the text of a time trace, runtime/TimeTrace.cc:276-332. *)
From Coq Require Import QArith Qabs.
From Verif Require Import Base Chars Preproc TimeFmt TimeTrace.

(** printf's "%w.1f": correctly rounded, ties to even, as glibc does.  Zero has no
    sign: the program prints no negative zero, see DESIGN.md. *)
Definition fixed1 (w : nat) (x : Q) : list Z :=
  let t := rhe (10 * Qabs x) in
  let body := dec_str (t / 10) ++ [46; 48 + t mod 10] in
  let body' := if Qlt_le_dec x 0 then 45 :: body else body in
  repeat 32 (w - length body') ++ body'.

(** Line 299: ns; timestamp and startTime are uint64_t, the parameter of
    toSeconds is an int64_t. *)
Definition ns_of (cps : Q) (start : Z) (e : event) : Q :=
  rnd (toSeconds (to_u 64 (ev_time e - start)) cps * 1000000000).

(** Lines 304-305 and 317.  A double has at most 309 digits in front of the
    point, so that what snprintf writes here fits into the 1000 bytes. *)
Definition trace_head (ns prev : Q) : list Z :=
  fixed1 8 ns ++ chars " ns (+" ++ fixed1 6 (rnd (ns - prev)) ++ chars " ns): ".

(** snprintf(message, 1000, ...), lines 309 and 315: [msg] is what printf would
    print for the event's format and arguments. *)
Definition cut_message (msg : event -> list Z) (e : event) : list Z := firstn 999 (msg e).

Definition trace_line (msg : event -> list Z) (ns prev : Q) (e : event) : list Z :=
  trace_head ns prev ++ cut_message msg e.

(** The loop, lines 276-322, for the events it finds: appended to the string [s].
    [ns] is line 299 and [line] lines 304-317. *)
Fixpoint string_loop (ns : event -> Q) (line : Q -> Q -> event -> list Z) (prev : Q) (es : list event) (s : list Z) : list Z :=
  match es with
  | [] => s
  | e :: r =>
    let s1 := match s with [] => s | _ => s ++ [10] end in
    string_loop ns line (ns e) r (s1 ++ line (ns e) prev e)
  end.

(** The same for a file. *)
Fixpoint file_loop (ns : event -> Q) (line : Q -> Q -> event -> list Z) (prev : Q) (es : list event) : list Z :=
  match es with
  | [] => []
  | e :: r => line (ns e) prev e ++ [10] ++ file_loop ns line (ns e) r
  end.

Definition nothing : list Z := chars "No time trace events to print".

(** printInternal with a string (getTrace, lines 49-62 and 152-159) and with a file (print, lines 69-78 and 165-170); lines 324-330. *)
Definition trace_string (cps : Q) (msg : event -> list Z) (buffers : list buffer) : option (list Z) :=
  let '(start, found) := printInternal buffers in
  match found with
  | None => None
  | Some [] => Some nothing
  | Some es => Some (string_loop (ns_of cps start) (trace_line msg) 0 es [])
  end.

Definition trace_file (cps : Q) (msg : event -> list Z) (buffers : list buffer) : option (list Z) :=
  let '(start, found) := printInternal buffers in
  match found with
  | None => None
  | Some [] => Some nothing
  | Some es => Some (file_loop (ns_of cps start) (trace_line msg) 0 es)
  end.
