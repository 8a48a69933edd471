(** Model of the logging side of a C++17 log statement and of its compression
    function, runtime/NanoLogCpp17.h:342-1047. *)
From Verif Require Import Base Packer FrontFmt.

(** Types of log arguments as deduced for [Ts... args] (by value, so arrays have
    decayed to pointers): integers (bool and enums included), floating point
    types by size, [char*]/[const char*], [wchar_t*]/[const wchar_t*], [void*],
    and any other pointer with the size of what it points to. *)
Inductive aty := TyInt (t : ity) | TyFlt (n : nat) | TyStr | TyWStr | TyVoid | TyPtr (elem : Z).

(** Arguments.  Floating point values are object representations.  A pointer to
    characters carries what is stored at its address up to the end of the object
    it points into; a [wchar_t] is one element of the list. *)
Inductive arg :=
| AInt (t : ity) (v : Z)
| AFlt (bs : list Z)
| AStr (addr : Z) (buf : list Z)
| AWStr (addr : Z) (buf : list Z)
| AVoid (addr : Z)
| APtr (elem addr : Z) (buf : list Z).

Definition aty_of (a : arg) : aty :=
  match a with
  | AInt t _ => TyInt t
  | AFlt bs => TyFlt (length bs)
  | AStr _ _ => TyStr
  | AWStr _ _ => TyWStr
  | AVoid _ => TyVoid
  | APtr e _ _ => TyPtr e
  end.

Definition sizeof (t : aty) : Z :=
  match t with TyInt t => Z.of_nat (it_bytes t) | TyFlt n => Z.of_nat n | _ => 8 end.

(** Object representation of an argument. *)
Definition obj_bytes (a : arg) : list Z :=
  match a with
  | AInt t v => le_bytes (it_bytes t) v
  | AFlt bs => bs
  | AStr p _ | AWStr p _ | AVoid p | APtr _ p _ => le_bytes 8 p
  end.

Definition wbytes (ws : list Z) : list Z := flat_map (le_bytes 4) ws.

(** strlen, wcslen: [None] when they run past the object. *)
Fixpoint strlen (buf : list Z) : option Z :=
  match buf with
  | [] => None
  | c :: r => if c =? 0 then Some 0 else match strlen r with Some n => Some (n + 1) | None => None end
  end.

(** as_uint64_t, NanoLogCpp17.h:510-526. *)
Definition as_uint64 (a : arg) : Z := match a with AInt _ v => to_u 64 v | _ => 0 end.

(** The truncation common to both string versions of getArgSize,
    NanoLogCpp17.h:605-616 and 645-656; [len] is strlen or wcslen. *)
Definition limit_len (fmtType previousPrecision len : Z) : Z :=
  let fmtLength := to_u 32 fmtType in
  if (0 <=? fmtType) && (fmtLength <? len) then fmtLength
  else if (fmtType =? PT_STRING_WITH_DYNAMIC_PRECISION) && (previousPrecision <? len)
       then previousPrecision
  else len.

Record asize := ASize { as_bytes : Z; as_prec : Z; as_string : Z }.

(** getArgSize, NanoLogCpp17.h:551-659: bytes needed, previousPrecision and
    stringSize afterwards ([old] is its value before). *)
Definition getArgSize (fmtType previousPrecision old : Z) (a : arg) : option asize :=
  match a with
  | AVoid _ => Some (ASize 8 previousPrecision old)
  | AStr _ buf =>
      if fmtType <=? PT_NON_STRING then Some (ASize 8 previousPrecision old)
      else match strlen buf with
           | None => None
           | Some len => let n := limit_len fmtType previousPrecision len in
                         Some (ASize (n + 4) previousPrecision n)
           end
  | AWStr _ buf =>
      if fmtType <=? PT_NON_STRING then Some (ASize 8 previousPrecision old)
      else match strlen buf with
           | None => None
           | Some len => let n := limit_len fmtType previousPrecision len * 4 in
                         Some (ASize (n + 4) previousPrecision n)
           end
  | _ =>
      Some (ASize (sizeof (aty_of a))
                  (if fmtType =? PT_DYNAMIC_PRECISION then as_uint64 a else previousPrecision) old)
  end.

(** getArgSizes, NanoLogCpp17.h:699-721, with the operands of [+] evaluated from
    left to right (C++ leaves the order open; see DESIGN.md).  Also returns the
    array stringSizes.  [None]: strlen out of bounds, or a number of arguments
    that does not compile. *)
Fixpoint getArgSizes (fmtTypes : list Z) (previousPrecision : Z) (args : list arg)
    : option (Z * list Z) :=
  match fmtTypes, args with
  | [], [] => Some (0, [])
  | t :: ts, a :: r =>
      match getArgSize t previousPrecision 0 a with
      | None => None
      | Some s =>
        match getArgSizes ts (as_prec s) r with
        | None => None
        | Some (n, sizes) => Some (as_bytes s + n, as_string s :: sizes)
        end
      end
  | _, _ => None
  end.

(** The string specialisation of store_argument copies [stringSize] bytes from
    the argument. *)
Definition string_bytes (a : arg) : list Z :=
  match a with AStr _ buf => buf | AWStr _ buf => wbytes buf | _ => [] end.

Definition is_string_arg (a : arg) : bool :=
  match a with AStr _ _ | AWStr _ _ => true | _ => false end.

(** store_argument, NanoLogCpp17.h:368-436.  [None]: it throws. *)
Definition store_argument (m : mem) (storage : Z) (a : arg) (paramType stringSize : Z)
    : option (mem * Z) :=
  if is_string_arg a && negb (paramType <=? PT_NON_STRING) then
    if 2 ^ 32 - 1 <? stringSize then None
    else
      let m1 := store m storage (le_bytes 4 stringSize) in
      Some (store m1 (storage + 4) (firstn (Z.to_nat stringSize) (string_bytes a)),
            storage + 4 + stringSize)
  else Some (store m storage (obj_bytes a), storage + sizeof (aty_of a)).

(** store_arguments, NanoLogCpp17.h:468-492. *)
Fixpoint store_arguments (m : mem) (storage : Z) (paramTypes stringBytes : list Z) (args : list arg)
    : option (mem * Z) :=
  match paramTypes, stringBytes, args with
  | t :: ts, n :: ns, a :: r =>
      match store_argument m storage a t n with
      | None => None
      | Some (m1, s1) => store_arguments m1 s1 ts ns r
      end
  | _, _, _ => Some (m, storage)
  end.

(** log, NanoLogCpp17.h:1014-1046, from the sizes on: what is reserved, the
    staging memory afterwards and the final writePos.  UncompressedEntry is
    fmtId, entrySize (uint32_t), timestamp (uint64_t), runtime/Log.h:181-196. *)
Record logrec := LogRec { lr_mem : mem; lr_alloc : Z; lr_end : Z }.

Definition log_record (m : mem) (writePos : Z) (logId timestamp : Z)
    (paramTypes : list Z) (args : list arg) : option logrec :=
  match getArgSizes paramTypes (2 ^ 64 - 1) args with
  | None => None
  | Some (n, sizes) =>
    let allocSize := n + 16 in
    match store_arguments m (writePos + 16) paramTypes sizes args with
    | None => None
    | Some (m1, e) =>
      let m2 := store m1 writePos (le_bytes 4 logId) in
      let m3 := store m2 (writePos + 8) (le_bytes 8 timestamp) in
      let m4 := store m3 (writePos + 4) (le_bytes 4 (to_u 32 allocSize)) in
      Some (LogRec m4 allocSize e)
    end
  end.

(** Compression, NanoLogCpp17.h:744-956. *)

(** [T argument; memcpy(&argument, *in, sizeof(T))] as seen by [pack]. *)
Definition read_val (t : aty) (min : mem) (in_ : Z) : pval :=
  match t with
  | TyInt t => pval_of_int t (cast t (le_val (load min in_ (it_bytes t))))
  | TyFlt n => PFlt (load min in_ n)
  | _ => PPtr (le_val (load min in_ 8))
  end.

(** characterWidth, NanoLogCpp17.h:777-790. *)
Definition characterWidth (t : aty) : Z :=
  match t with
  | TyStr => 1
  | TyWStr => 4
  | TyVoid => 8
  | TyPtr e => e
  | _ => sizeof t
  end.

(** State of the two passes: nibbleCnt, *in, *out, output memory, and the first
    output byte never written so far. *)
Record cst := Cst { cs_nib : Z; cs_in : Z; cs_out : Z; cs_mem : mem; cs_hi : Z }.

(** compressSingle<T>, NanoLogCpp17.h:744-815. *)
Definition compressSingle (t : aty) (nibbles : Z) (paramType : Z) (stringsOnly : bool)
    (min : mem) (s : cst) : cst :=
  if PT_NON_STRING <? paramType then
    let stringBytes := le_val (load min (cs_in s) 4) in
    let in1 := cs_in s + 4 in
    if negb stringsOnly then Cst (cs_nib s) (in1 + stringBytes) (cs_out s) (cs_mem s) (cs_hi s)
    else
      let m1 := store (cs_mem s) (cs_out s) (load min in1 (Z.to_nat stringBytes)) in
      let out1 := cs_out s + stringBytes in
      let w := characterWidth t in
      let m2 := store m1 out1 (repeat 0 (Z.to_nat w)) in
      Cst (cs_nib s) (in1 + stringBytes) (out1 + w) m2 (Z.max (cs_hi s) (out1 + w))
  else if stringsOnly then Cst (cs_nib s) (cs_in s + sizeof t) (cs_out s) (cs_mem s) (cs_hi s)
  else
    let r := pack (cs_mem s) (cs_out s) (read_val t min (cs_in s)) in
    Cst (cs_nib s + 1) (cs_in s + sizeof t) (pk_pos r)
        (write_nibble (pk_mem r) nibbles (cs_nib s) (pk_code r))
        (Z.max (cs_hi s) (pk_touched r)).

(** compress_internal / compressHelper, NanoLogCpp17.h:858-895. *)
Fixpoint compress_pass (ts : list aty) (nibbles : Z) (paramTypes : list Z) (stringsOnly : bool)
    (min : mem) (s : cst) : cst :=
  match ts, paramTypes with
  | t :: ts', p :: ps' =>
      compress_pass ts' nibbles ps' stringsOnly min (compressSingle t nibbles p stringsOnly min s)
  | _, _ => s
  end.

(** compress<Ts...>, NanoLogCpp17.h:918-956. *)
Definition compress (ts : list aty) (numNibbles : Z) (paramTypes : list Z)
    (min : mem) (input : Z) (mout : mem) (output : Z) : cst :=
  let out := output + (numNibbles + 1) / 2 in
  let s1 := compress_pass ts output paramTypes false min (Cst 0 input out mout output) in
  compress_pass ts output paramTypes true min
    (Cst 0 input (cs_out s1) (cs_mem s1) (cs_hi s1)).
