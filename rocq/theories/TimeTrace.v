(** Model of runtime/TimeTrace.cc and TimeTrace.h: per-thread circular buffers of
    events and how they are printed.  A buffer is used by one thread at a time
    here; see [begin_read] for readers.  Line numbers are those of TimeTrace.cc. *)
From Verif Require Import Base.

(** BUFFER_SIZE and BUFFER_MASK, TimeTrace.h:155-163. *)
Definition BUFFER_SIZE : Z := 2 ^ 13.
Definition BUFFER_MASK : Z := BUFFER_SIZE - 1.

(** Event, TimeTrace.h:119-131.  [ev_format] is the address of the format, 0 for
    NULL. *)
Record event := Event { ev_time : Z; ev_format : Z; ev_args : list Z }.

(** Buffer, TimeTrace.h:165-175. *)
Record buffer := Buffer { b_next : Z; b_readers : Z; b_events : Z -> event }.

(** Buffer::Buffer, 83-92. *)
Definition new_buffer : buffer := Buffer 0 0 (fun _ => Event 0 0 []).

Definition set_event (f : Z -> event) (i : Z) (e : event) : Z -> event := fun j => if j =? i then e else f j.

(** Buffer::record, 125-147. *)
Definition record (b : buffer) (e : event) : buffer :=
  if 0 <? b_readers b then b
  else Buffer (Z.land (b_next b + 1) BUFFER_MASK) (b_readers b) (set_event (b_events b) (b_next b) e).

(** Buffer::reset, 175-184, from index [i] on. *)
Fixpoint clear (fuel : nat) (i : Z) (f : Z -> event) : Z -> event :=
  match fuel with
  | O => f
  | S n => if ev_format (f i) =? 0 then f
           else clear n (i + 1) (set_event f i (Event (ev_time (f i)) 0 (ev_args (f i))))
  end.
Definition reset (b : buffer) : buffer := Buffer 0 (b_readers b) (clear (Z.to_nat BUFFER_SIZE) 0 (b_events b)).

(** ** printInternal *)

(** 217-219 and 333-335: [fetch_and], not [fetch_add]. *)
Definition begin_read (b : buffer) : buffer := Buffer (b_next b) (Z.land (b_readers b) 1) (b_events b).
Definition end_read (b : buffer) : buffer := Buffer (b_next b) (Z.land (b_readers b) (-1)) (b_events b).

Definition present (b : buffer) (i : Z) : bool := negb (ev_format (b_events b i) =? 0).
Definition next (i : Z) : Z := (i + 1) mod BUFFER_SIZE.

(** 229-241: the index of the oldest event. *)
Definition oldest (b : buffer) : Z := let i := next (b_next b) in if present b i then i else 0.

(** 250-256: startTime. *)
Fixpoint start_time (bs : list (buffer * Z)) (t : Z) : Z :=
  match bs with
  | [] => t
  | (b, c) :: r => start_time r (if present b c && (t <? ev_time (b_events b c)) then ev_time (b_events b c) else t)
  end.

(** 259-266: skip the events before startTime. *)
Fixpoint skip_old (fuel : nat) (b : buffer) (t c : Z) : Z :=
  match fuel with
  | O => c
  | S f => if present b c && (ev_time (b_events b c) <? t) && negb (c =? b_next b) then skip_old f b t (next c) else c
  end.

(** 275-290: the trace with the earliest event: its number and the event's time. *)
Fixpoint earliest (i : nat) (bs : list (buffer * Z)) (cur : option nat) (t : Z) : option nat :=
  match bs with
  | [] => cur
  | (b, c) :: r =>
    if negb (c =? b_next b) && present b c && (ev_time (b_events b c) <? t)
    then earliest (S i) r (Some i) (ev_time (b_events b c))
    else earliest (S i) r cur t
  end.

Fixpoint advance (i : nat) (bs : list (buffer * Z)) : list (buffer * Z) :=
  match bs, i with
  | [], _ => []
  | (b, c) :: r, O => (b, next c) :: r
  | x :: r, S j => x :: advance j r
  end.

(** 268-323: the events in the order in which they are printed.  [None]: not
    finished within [fuel]. *)
Fixpoint merge (fuel : nat) (bs : list (buffer * Z)) : option (list event) :=
  match fuel with
  | O => None
  | S f =>
    match earliest 0 bs None (2 ^ 64 - 1) with
    | None => Some []
    | Some i =>
      match nth_error bs i with
      | None => None
      | Some (b, c) => option_map (cons (b_events b c)) (merge f (advance i bs))
      end
    end
  end.

(** 226-323 but for the text of the lines: startTime and the events. *)
Definition printInternal (buffers : list buffer) : Z * option (list event) :=
  let bs := map (fun b => (b, oldest b)) buffers in
  let t := start_time bs 0 in
  (t, merge (S (length buffers * Z.to_nat BUFFER_SIZE))
        (map (fun '(b, c) => (b, skip_old (Z.to_nat BUFFER_SIZE) b t c)) bs)).
