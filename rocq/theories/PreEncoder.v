(** The preprocessor's side of the runtime: the log function the preprocessor
    replaced NANO_LOG by, and the encoder that calls the generated compression
    functions. *)
From Verif Require Import Base Packer LogHeader Chars Fmt MicroCode Args Printf Encoder Preproc GenCode.

(** compressFnArray, preprocessor/FunctionGenerator.py:244-259: the parameter
    types of the compression functions in the order of the numbers. *)
Definition compressFnArray (units : list (list stmt)) : list (option (list ftype)) :=
  map (fun o => match o with Some s => option_map arg_types (splitAndParse (st_fmt s)) | None => None end) (entries units).

(** compressFnArray[entry->fmtId](entry, writePos), runtime/Log.cc:254-256.
    [input] is where the arguments start, 16 bytes after the entry (Encoder.v).  A
    number outside of the array is undefined; here nothing is written. *)
Definition pp_compress (units : list (list stmt)) (id : Z) (min : mem) (input : Z) (mout : mem) (output : Z) : cst :=
  match nth_error (compressFnArray units) (Z.to_nat id) with
  | Some (Some types) =>
    match gen_compress types min (input - 16) mout output with
    | Some c => Cst 0 input (gr_out c) (gr_mem c) (gr_hi c)
    | None => Cst 0 input output mout output
    end
  | _ => Cst 0 input output mout output
  end.

(** encodeLogMsgs of the preprocessor version, runtime/Log.cc:211-272: no test
    whether the number is known. *)
Definition encodeLogMsgsPre (units : list (list stmt)) (e : enc) (min : mem) (from nbytes bufferId : Z) (newPass : bool)
    : enc * Z * Z :=
  encode_with (fun _ => true) (pp_compress units) e min from nbytes bufferId newPass.

(** One execution of the statement [s] of the program [units]: the arguments are
    converted to the parameters of the record function, which is called with the
    statement's number and stores at [p] (the place it got from reserveAlloc);
    [widen] is the conversion from float to double.  FunctionGenerator.py:220-247
    and 463-505.  Result: the memory and where the entry ends. *)
Definition pp_log (widen : list Z -> list Z) (units : list (list stmt)) (m : mem) (p ts : Z) (s : stmt) (args : list arg)
    : option (mem * Z) :=
  match splitAndParse (st_fmt s), number units s with
  | Some fs, Some k =>
    match convert_all widen (arg_types fs) args with
    | None => None
    | Some args' =>
      match gen_record m p (Z.of_nat k) ts fs args' with
      | Some r => Some (lr_mem r, lr_end r)
      | None => None
      end
    end
  | _, _ => None
  end.

(** Several, one behind the other. *)
Fixpoint pp_log_all (widen : list Z -> list Z) (units : list (list stmt)) (m : mem) (p : Z) (calls : list (stmt * list arg * Z))
    : option (mem * Z) :=
  match calls with
  | [] => Some (m, p)
  | (s, args, ts) :: r =>
    match pp_log widen units m p ts s args with
    | Some (m', p') => pp_log_all widen units m' p' r
    | None => None
    end
  end.
