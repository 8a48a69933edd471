(** Model of the static functions of TimeTrace: record (runtime/TimeTrace.h:81-93),
    createThreadBuffer (TimeTrace.cc:33-41) and reset (TimeTrace.cc:191-197).  Each
    is one step here; line numbers as in TimeTrace.v. *)
From Verif Require Import Base TimeTrace.

(** threadBuffers, in the order of their creation; each with the thread whose
    threadBuffer points to it. *)
Definition traces := list (Z * buffer).

Fixpoint find_thread (tid : Z) (ts : traces) : option buffer :=
  match ts with
  | [] => None
  | (t, b) :: r => if t =? tid then Some b else find_thread tid r
  end.

Fixpoint set_thread (tid : Z) (b : buffer) (ts : traces) : traces :=
  match ts with
  | [] => []
  | (t, b') :: r => if t =? tid then (t, b) :: r else (t, b') :: set_thread tid b r
  end.

(** createThreadBuffer: threadBuffer == NULL for a thread without buffer. *)
Definition create (tid : Z) (ts : traces) : traces :=
  match find_thread tid ts with None => ts ++ [(tid, new_buffer)] | Some _ => ts end.

(** record. *)
Definition api_record (tid : Z) (e : event) (ts : traces) : traces :=
  let ts1 := match find_thread tid ts with None => create tid ts | Some _ => ts end in
  match find_thread tid ts1 with
  | None => ts1
  | Some b => set_thread tid (record b e) ts1
  end.

(** reset. *)
Definition api_reset (ts : traces) : traces := map (fun '(t, b) => (t, reset b)) ts.

(** What the threads call, in the order of the calls. *)
Inductive api := ARecord (tid : Z) (e : event) | AReset.
Definition api_step (ts : traces) (a : api) : traces :=
  match a with ARecord tid e => api_record tid e ts | AReset => api_reset ts end.
Definition api_run (calls : list api) : traces := fold_left api_step calls [].
