(** Model of the log file under writes that fail or are cut short,
    runtime/RuntimeLogger.cc:320-346 and 545-626, Config.h:28. *)
From Verif Require Import Base.

(** How a write ended: aio_write returned -1 (line 616), aio_error or aio_return gave an
    error (567-575 and 331-338), or aio_return gave a number of bytes, which is not
    looked at. *)
Inductive outcome := NotStarted | WriteError | Wrote (n : nat).

(** What reached the file of a buffer of bytes.  The file is opened with O_APPEND
    (Config.h:28), so it goes to the file's end. *)
Definition reached_disk (o : outcome) (buf : list Z) : list Z :=
  match o with
  | NotStarted => []
  | WriteError => []
  | Wrote n => firstn n buf
  end.

(** The background thread goes on to the next buffer in every case (577 ff.,
    619-625): nothing is written again. *)
Fixpoint disk (writes : list (list Z * outcome)) (file : list Z) : list Z :=
  match writes with
  | [] => file
  | (buf, o) :: r => disk r (file ++ reached_disk o buf)
  end.
