(** Model of Log::LogMessage, runtime/Log.h:719-855 and runtime/Log.cc:498-575:
    the arguments of one message, as handed to users of the decoder. *)
From Verif Require Import Base Packer Chars Fmt Args Printf.

(** INITIAL_SIZE, Log.h:722. *)
Definition initial_size : Z := 10.

(** A block of memory with its size in bytes. *)
Record block := Block { bk_size : Z; bk_mem : mem }.

(** [*(reinterpret_cast<T*>(p)) = in] and [memcpy] into a block; [None]: part of
    it lies outside. *)
Definition bk_write (b : block) (off : Z) (bs : list Z) : option block :=
  if (0 <=? off) && (off + zlen bs <=? bk_size b)
  then Some (Block (bk_size b) (store (bk_mem b) off bs)) else None.

Definition bk_read (b : block) (off : Z) (n : nat) : option (list Z) :=
  if (0 <=? off) && (off + Z.of_nat n <=? bk_size b)
  then Some (load (bk_mem b) off n) else None.

(** The fields of Log.h:724-746; [lm_live] counts blocks obtained from malloc
    and not freed. *)
Record lmsg := LMsg {
  lm_meta : option Z; lm_id : Z; lm_rdtsc : Z;
  lm_num : Z; lm_cap : Z; lm_raw : block; lm_ext : option block; lm_live : Z
}.

(** Constructor, Log.cc:498-506: rawArgs is value-initialised. *)
Definition lm_init : lmsg :=
  LMsg None (2 ^ 32 - 1) 0 0 initial_size (Block (8 * initial_size) (fun _ => 0)) None 0.

(** Destructor, Log.cc:509-515. *)
Definition lm_destroy (s : lmsg) : lmsg :=
  match lm_ext s with
  | Some _ => LMsg (lm_meta s) (lm_id s) (lm_rdtsc s) (lm_num s) initial_size (lm_raw s) None (lm_live s - 1)
  | None => s
  end.

(** [while (totalCapacity < nparams) totalCapacity *= 2;], Log.cc:529-530;
    [None]: int overflow.  From 10 up an int can be doubled 27 times. *)
Fixpoint grow (fuel : nat) (cap nparams : Z) : option Z :=
  if cap <? nparams then
    match fuel with
    | O => None
    | S f => if 2 * cap <? 2 ^ 31 then grow f (2 * cap) nparams else None
    end
  else Some cap.

(** reserve, Log.cc:523-553.  [junk] is what malloc's memory contains; malloc is
    assumed to succeed (the program exits otherwise). *)
Definition lm_reserve (s : lmsg) (nparams : Z) (junk : mem) : option lmsg :=
  if nparams <=? lm_cap s then Some s
  else
    match grow 32 (lm_cap s) nparams with
    | None => None
    | Some cap =>
      let new := Block (8 * (cap - initial_size)) junk in
      match lm_ext s with
      | None => Some (LMsg (lm_meta s) (lm_id s) (lm_rdtsc s) (lm_num s) cap (lm_raw s) (Some new) (lm_live s + 1))
      | Some old =>
        if 0 <=? lm_num s - initial_size then
          match bk_read old 0 (Z.to_nat (8 * (lm_num s - initial_size))) with
          | None => None
          | Some bs =>
            match bk_write new 0 bs with
            | None => None
            | Some new' =>
              Some (LMsg (lm_meta s) (lm_id s) (lm_rdtsc s) (lm_num s) cap (lm_raw s) (Some new') (lm_live s + 1 - 1))
            end
          end
        else None
      end
    end.

(** push, Log.h:775-791; [bs] is the object representation of the argument. *)
Definition lm_push (s : lmsg) (bs : list Z) (junk : mem) : option lmsg :=
  match (if lm_num s =? lm_cap s then lm_reserve s (lm_num s + 1) junk else Some s) with
  | None => None
  | Some s1 =>
    if lm_num s1 <? initial_size then
      match bk_write (lm_raw s1) (8 * lm_num s1) bs with
      | None => None
      | Some raw => Some (LMsg (lm_meta s1) (lm_id s1) (lm_rdtsc s1) (lm_num s1 + 1) (lm_cap s1) raw (lm_ext s1) (lm_live s1))
      end
    else
      match lm_ext s1 with
      | None => None
      | Some ext =>
        match bk_write ext (8 * (lm_num s1 - initial_size)) bs with
        | None => None
        | Some ext' => Some (LMsg (lm_meta s1) (lm_id s1) (lm_rdtsc s1) (lm_num s1 + 1) (lm_cap s1) (lm_raw s1) (Some ext') (lm_live s1))
        end
      end
  end.

(** get, Log.h:806-816, of a type of [size] bytes; [None]: failed assertion,
    null dereference or access outside the object. *)
Definition lm_get (s : lmsg) (argNum : Z) (size : nat) : option (list Z) :=
  if argNum <? lm_cap s then
    if argNum <? initial_size then bk_read (lm_raw s) (8 * argNum) size
    else match lm_ext s with
         | None => None
         | Some ext => bk_read ext (8 * (argNum - initial_size)) size
         end
  else None.

(** reset, Log.cc:568-575. *)
Definition lm_reset (s : lmsg) (meta : option Z) (logId rdtsc : Z) : lmsg :=
  LMsg meta logId rdtsc 0 (lm_cap s) (lm_raw s) (lm_ext s) (lm_live s).

(** What is done with a LogMessage between construction and destruction. *)
Inductive lop := LReset (meta : option Z) (logId rdtsc : Z) | LPush (bs : list Z) (junk : mem).

Definition lm_step (s : lmsg) (o : lop) : option lmsg :=
  match o with
  | LReset meta logId rdtsc => Some (lm_reset s meta logId rdtsc)
  | LPush bs junk => lm_push s bs junk
  end.

Fixpoint lm_run (s : lmsg) (ops : list lop) : option lmsg :=
  match ops with
  | [] => Some s
  | o :: r => match lm_step s o with Some s' => lm_run s' r | None => None end
  end.

(** The object representation pushed for an argument of printSingleArg,
    Log.cc:1266: doubles made from a packed float are [widen]ed; a long double is
    replaced by the int -1 (Log.h:826-829). *)
Definition va_bytes (widen : list Z -> list Z) (v : va) : list Z :=
  match v with
  | VaInt t z => le_bytes (it_bytes t) z
  | VaFlt (F64 bs) => bs
  | VaFlt (F32w bs) => widen bs
  | VaFlt (F80 _) => le_bytes 4 (-1)
  | VaPtr p _ => le_bytes 8 p
  end.

(** The LogMessage after a message whose arguments are [vs], Log.cc:1412-1640;
    every push comes with the memory malloc would return. *)
Definition deliver (widen : list Z -> list Z) (meta : option Z) (logId rdtsc : Z) (vs : list (va * mem)) : list lop :=
  LReset meta logId rdtsc :: map (fun '(v, junk) => LPush (va_bytes widen v) junk) vs.
