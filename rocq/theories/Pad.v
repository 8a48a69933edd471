(** Model of the padding of a block for direct I/O,
    runtime/RuntimeLogger.cc:590-611. *)
From Verif Require Import Base.

(** The buffer and the number of bytes given to aio_write; [direct]: FILE_PARAMS
    has O_DIRECT; [buf]: compressingBuffer. *)
Definition pad_block (direct : bool) (m : mem) (buf bytesToWrite : Z) : mem * Z :=
  let bytesOver := Z.rem bytesToWrite 512 in
  if direct && negb (bytesOver =? 0)
  then (store m buf (repeat 0 (Z.to_nat (512 - bytesOver))), bytesToWrite + 512 - bytesOver)
  else (m, bytesToWrite).

(** What reaches the file. *)
Definition block_written (direct : bool) (m : mem) (buf bytesToWrite : Z) : list Z :=
  let '(m', n) := pad_block direct m buf bytesToWrite in load m' buf (Z.to_nat n).
