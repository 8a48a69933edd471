(** Model of the files the logger appends to: FILE_PARAMS (runtime/Config.h:28) has
    O_APPEND and O_CREAT, for the default file (RuntimeLogger.cc:75-76) and for those of
    setLogFile (RuntimeLogger.cc:641), so what a file holds stays in front of what is
    logged to it. *)
From Verif Require Import Base.

(** The contents of the files, by their names; a file that does not exist is empty. *)
Definition store := nat -> list Z.

(** A write to the file [n]. *)
Definition append (s : store) (n : nat) (bytes : list Z) : store :=
  fun m => if (m =? n)%nat then s m ++ bytes else s m.

(** The files logged to one after the other: for each its name, and what was written
    until the next call of setLogFile (or the end). *)
Fixpoint logged (s : store) (ws : list (nat * list Z)) : store :=
  match ws with
  | [] => s
  | (n, bytes) :: r => logged (append s n bytes) r
  end.
