(** Model of the C++ code that preprocessor/FunctionGenerator.py generates for a
    log statement (generateLogFunctions, FunctionGenerator.py:343-711) and for a
    program (outputCompilationFiles, 153-305): what the generated functions do.
    Line numbers without a file name are those of FunctionGenerator.py. *)
From Verif Require Import Base Packer LogHeader Chars Fmt FrontFmt MicroCode Args Printf Decode Encoder Preproc.

(** ** Parameters *)

(** The C++ type a type name of FmtType stands for on x86-64. *)
Definition param_type (t : ftype) : option aty :=
  match t with
  | NONE => None
  | unsigned_char_t => Some (TyInt (Ity false 1))
  | unsigned_short_int_t => Some (TyInt (Ity false 2))
  | unsigned_int_t | wint_t_t => Some (TyInt (Ity false 4))
  | unsigned_long_int_t | unsigned_long_long_int_t | uintmax_t_t | size_t_t => Some (TyInt (Ity false 8))
  | signed_char_t => Some (TyInt (Ity true 1))
  | short_int_t => Some (TyInt (Ity true 2))
  | int_t => Some (TyInt (Ity true 4))
  | long_int_t | long_long_int_t | intmax_t_t | ptrdiff_t_t => Some (TyInt (Ity true 8))
  | double_t => Some (TyFlt 8)
  | long_double_t => Some (TyFlt 16)
  | const_void_ptr_t => Some TyVoid
  | const_char_ptr_t => Some TyStr
  | const_wchar_t_ptr_t => Some TyWStr
  end.

(** The implicit conversion of an argument to the parameter's type, when the
    user's statement calls the generated record function (declaration: 367-374).
    [widen] is the conversion from float to double.  [None]: does not compile, or
    a conversion between integers and floating point types or from double to long
    double (not modelled; printf is undefined there). *)
Definition convert (widen : list Z -> list Z) (t : aty) (a : arg) : option arg :=
  match t, a with
  | TyInt i, AInt _ v => Some (AInt i (cast i v))
  | TyFlt n, AFlt bs =>
      if Nat.eqb (length bs) n then Some a
      else if Nat.eqb n 8 && Nat.eqb (length bs) 4 then Some (AFlt (widen bs))
      else None
  | TyStr, AStr _ _ | TyWStr, AWStr _ _ => Some a
  | TyVoid, AStr p _ | TyVoid, AWStr p _ | TyVoid, AVoid p | TyVoid, APtr _ p _ => Some (AVoid p)
  | _, _ => None
  end.

(** A call with one argument per parameter. *)
Fixpoint convert_all (widen : list Z -> list Z) (ts : list ftype) (args : list arg) : option (list arg) :=
  match ts, args with
  | [], [] => Some []
  | t :: ts', a :: r =>
      match param_type t with
      | None => None
      | Some ty => match convert widen ty a, convert_all widen ts' r with
                   | Some a', Some r' => Some (a' :: r')
                   | _, _ => None
                   end
      end
  | _, _ => None
  end.

(** isStringType, 878-881. *)
Definition isStringType (t : ftype) : bool :=
  match t with const_char_ptr_t | const_wchar_t_ptr_t => true | _ => false end.

(** stringArgsIdx and nonStringArgsIdx, 388-391. *)
Definition string_idx (l : list ftype) : list nat :=
  filter (fun i => isStringType (nth i l NONE)) (seq 0 (length l)).
Definition prim_idx (l : list ftype) : list nat :=
  filter (fun i => negb (isStringType (nth i l NONE))) (seq 0 (length l)).

(** ** The record function *)

(** strnlen: [None] when it runs past the object. *)
Fixpoint strnlen (buf : list Z) (n : Z) : option Z :=
  if n =? 0 then Some 0
  else match buf with
       | [] => None
       | c :: r => if c =? 0 then Some 0 else option_map (fun k => k + 1) (strnlen r (n - 1))
       end.

(** The initialiser of str{i}Len, 408-437: [prec] is the specifier's precision,
    [prev] the parameter in front of the string.  A precision of 0 counts as none
    ("if not precision").  wcsnlen_s, named for wide strings with a precision, is
    in no library NanoLog is built with (GCC, glibc), so that the generated
    function does not compile: [None]. *)
Definition str_len (prec : field) (prev : option arg) (a : arg) : option Z :=
  match a with
  | AStr _ buf =>
    option_map (fun n => 1 + n)
      match prec with
      | FNone => strlen buf
      | FNum n => if n =? 0 then strlen buf else strnlen buf n
      | FStar => match prev with Some (AInt _ v) => strnlen buf (to_u 64 v) | _ => None end
      end
  | AWStr _ buf =>
    option_map (fun n => (1 + n) * 4)
      match prec with
      | FNone => strlen buf
      | FNum n => if n =? 0 then strlen buf else None
      | FStar => None
      end
  | _ => None
  end.

Definition starred (f : field) : nat := match f with FStar => 1 | _ => 0 end.

(** strlenDeclarations, 394-441: index of the parameter and the value of its
    str{i}Len. *)
Fixpoint strlen_decls (fs : list fmttype) (argNum : nat) (args : list arg) : option (list (nat * Z)) :=
  match fs with
  | [] => Some []
  | f :: r =>
    let i := (argNum + starred (ft_prec f) + starred (ft_width f))%nat in
    if isStringType (ft_type f) then
      match nth_error args i with
      | None => None
      | Some a =>
        match str_len (ft_prec f) (nth_error args (i - 1)) a, strlen_decls r (S i) args with
        | Some n, Some l => Some ((i, n) :: l)
        | _, _ => None
        end
      end
    else strlen_decls r (S i) args
  end.

Fixpoint len_of (i : nat) (l : list (nat * Z)) : option Z :=
  match l with
  | [] => None
  | (j, n) :: r => if Nat.eqb i j then Some n else len_of i r
  end.

(** [sizeof(arg0) + ...], 448-449, and [str1Len + ...], 445-446. *)
Definition sizeof_param (types : list ftype) (i : nat) : Z :=
  match param_type (nth i types NONE) with Some t => sizeof t | None => 0 end.
Definition prim_sizes (types : list ftype) : Z :=
  fold_right Z.add 0 (map (sizeof_param types) (prim_idx types)).
Fixpoint str_sizes (lens : list (nat * Z)) (idx : list nat) : option Z :=
  match idx with
  | [] => Some 0
  | i :: r => match len_of i lens, str_sizes lens r with
              | Some n, Some s => Some (n + s)
              | _, _ => None
              end
  end.

(** recordPrimitive for the parameters [idx], 455-456 and runtime/Log.h:625-630. *)
Fixpoint record_prims (m : mem) (buffer : Z) (args : list arg) (idx : list nat) : option (mem * Z) :=
  match idx with
  | [] => Some (m, buffer)
  | i :: r => match nth_error args i with
              | None => None
              | Some a => record_prims (store m buffer (obj_bytes a)) (buffer + sizeof (aty_of a)) args r
              end
  end.

(** The strings, 458-461: memcpy, then a terminator over the last character
    copied.  [None]: memcpy reads past the string's object. *)
Fixpoint record_strs (m : mem) (buffer : Z) (args : list arg) (lens : list (nat * Z)) (idx : list nat)
    : option (mem * Z) :=
  match idx with
  | [] => Some (m, buffer)
  | i :: r =>
    match nth_error args i, len_of i lens with
    | Some a, Some n =>
      if zlen (string_bytes a) <? n then None
      else
        let m1 := store m buffer (firstn (Z.to_nat n) (string_bytes a)) in
        let b := buffer + n in
        let w := characterWidth (aty_of a) in
        record_strs (store m1 (b - w) (repeat 0 (Z.to_nat w))) b args lens r
    | _, _ => None
    end
  end.

(** The record function, 463-505, from the time stamp on: the entry at [p] in the
    staging buffer, what was reserved, and the final [buffer]. *)
Definition gen_record (m : mem) (p id timestamp : Z) (fs : list fmttype) (args : list arg) : option logrec :=
  let types := arg_types fs in
  match strlen_decls fs 0 args with
  | None => None
  | Some lens =>
    match str_sizes lens (string_idx types) with
    | None => None
    | Some strs =>
      let allocSize := prim_sizes types + strs + 16 in
      let m1 := store m p (le_bytes 4 id) in
      let m2 := store m1 (p + 8) (le_bytes 8 timestamp) in
      let m3 := store m2 (p + 4) (le_bytes 4 (to_u 32 allocSize)) in
      match record_prims m3 (p + 16) args (prim_idx types) with
      | None => None
      | Some (m4, b4) =>
        match record_strs m4 b4 args lens (string_idx types) with
        | None => None
        | Some (m5, b5) => Some (LogRec m5 allocSize b5)
        end
      end
    end
  end.

(** ** The compression function *)

(** Reading back the primitives, 516-521: the values and [args] afterwards. *)
Fixpoint read_prims (min : mem) (args : Z) (types : list ftype) (idx : list nat) : option (list pval * Z) :=
  match idx with
  | [] => Some ([], args)
  | i :: r =>
    match param_type (nth i types NONE) with
    | None => None
    | Some t => match read_prims min (args + sizeof t) types r with
                | Some (xs, e) => Some (read_val t min args :: xs, e)
                | None => None
                end
    end
  end.

(** Packing them, 523-529; [hi]: no byte from there on has been written. *)
Fixpoint pack_prims (m : mem) (nib i out hi : Z) (xs : list pval) : mem * Z * Z :=
  match xs with
  | [] => (m, out, hi)
  | x :: r =>
    let k := pack m out x in
    pack_prims (write_nibble (pk_mem k) nib i (pk_code k)) nib (i + 1) (pk_pos k) (Z.max hi (pk_touched k)) r
  end.

(** The compression function, 531-576, for an entry at [re]: output memory, final
    [out], first byte never written. *)
Record gres := GRes { gr_mem : mem; gr_out : Z; gr_hi : Z }.

Definition gen_compress (types : list ftype) (min : mem) (re : Z) (mout : mem) (out : Z) : option gres :=
  let numNibbles := zlen (prim_idx types) in
  match read_prims min (re + 16) types (prim_idx types) with
  | None => None
  | Some (xs, args) =>
    let '(m1, out1, hi1) := pack_prims mout out 0 (out + (numNibbles + 1) / 2) out xs in
    match string_idx types with
    | [] => Some (GRes m1 out1 hi1)
    | _ =>
      let entrySize := le_val (load min (re + 4) 4) in
      let stringBytes := to_u 64 (entrySize - prim_sizes types - 16) in
      let m2 := store m1 out1 (load min args (Z.to_nat stringBytes)) in
      Some (GRes m2 (out1 + stringBytes) (Z.max hi1 (out1 + stringBytes)))
    end
  end.

(** ** The decompression function *)

(** nib[i/2].first or .second of the nibbles at [a], 586-592. *)
Definition nibble_at (m : mem) (a i : Z) : Z :=
  if Z.even i then nib_first (m (a + i / 2)) else nib_second (m (a + i / 2)).

(** BufferUtils::unpack<T>. *)
Definition unpack_as (t : aty) (m : mem) (p code : Z) : option (va * Z) :=
  match t with
  | TyInt i => let '(v, p') := unpack_int i m p code in Some (VaInt i v, p')
  | TyFlt n => match unpack_float (Z.of_nat n) m p code with
               | Some (f, p') => Some (VaFlt f, p')
               | None => None
               end
  | TyVoid => let '(v, p') := unpack_ptr m p code in Some (VaPtr v PoNone, p')
  | _ => None
  end.

(** Unpacking, 584-592: parameter index and value, and [*in] afterwards. *)
Fixpoint unpack_prims (m : mem) (nib i in_ : Z) (types : list ftype) (idx : list nat)
    : option (list (nat * va) * Z) :=
  match idx with
  | [] => Some ([], in_)
  | k :: r =>
    match param_type (nth k types NONE) with
    | None => None
    | Some t =>
      match unpack_as t m in_ (nibble_at m nib i) with
      | None => None
      | Some (v, in1) =>
        match unpack_prims m nib (i + 1) in1 types r with
        | Some (l, e) => Some ((k, v) :: l, e)
        | None => None
        end
      end
    end
  end.

(** The strings, 594-604; [lim] ends the storage. *)
Fixpoint find_strs (m : mem) (lim in_ : Z) (types : list ftype) (idx : list nat)
    : option (list (nat * va) * Z) :=
  match idx with
  | [] => Some ([], in_)
  | k :: r =>
    let found :=
      match param_type (nth k types NONE) with
      | Some TyWStr => option_map (fun s => (PoWide (s ++ [0]), (zlen s + 1) * 4)) (mwstr (Z.to_nat ((lim - in_) / 4)) m in_)
      | _ => option_map (fun s => (PoChars (s ++ [0]), zlen s + 1)) (mstr (Z.to_nat (lim - in_)) m in_)
      end in
    match found with
    | None => None
    | Some (s, n) =>
      match find_strs m lim (in_ + n) types r with
      | Some (l, e) => Some ((k, VaPtr in_ s) :: l, e)
      | None => None
      end
    end
  end.

Fixpoint val_of (i : nat) (l : list (nat * va)) : option va :=
  match l with
  | [] => None
  | (j, v) :: r => if Nat.eqb i j then Some v else val_of i r
  end.

(** The decompression function, 606-648, up to the "\r\n" that it adds to the
    format: the text printed for the format whose characters are [fmt], and
    [*in] afterwards. *)
Definition gen_decompress (conv : rconv -> list Z) (fmt : list Z) (types : list ftype) (m : mem) (in_ lim : Z)
    : option (list Z * Z) :=
  let numNibbles := zlen (prim_idx types) in
  match unpack_prims m in_ 0 (in_ + (numNibbles + 1) / 2) types (prim_idx types) with
  | None => None
  | Some (l, p) =>
    match find_strs m lim p types (string_idx types) with
    | None => None
    | Some (l', e) =>
      match all_some (map (fun i => val_of i (l ++ l')) (seq 0 (length types))) with
      | None => None
      | Some vs => match printf conv fmt vs with Some t => Some (t, e) | None => None end
      end
    end
  end.

(** ** The dictionary *)

(** The characters of a string literal with the source text [s]: the simple
    escape sequences (C++ [lex.ccon]); [None]: octal, hexadecimal and universal
    ones (not modelled). *)
Definition escape (c : Z) : option Z :=
  if c =? ch "n" then Some 10 else if c =? ch "t" then Some 9 else if c =? ch "r" then Some 13
  else if c =? ch "a" then Some 7 else if c =? ch "b" then Some 8 else if c =? ch "f" then Some 12
  else if c =? ch "v" then Some 11
  else if mem_char c [92; 34; 39; 63] then Some c else None.

Fixpoint literal (s : list Z) : option (list Z) :=
  match s with
  | [] => Some []
  | c :: r =>
    if c =? c_bsl then
      match r with
      | [] => None
      | e :: r' => match escape e, literal r' with Some v, Some l => Some (v :: l) | _, _ => None end
      end
    else option_map (cons c) (literal r)
  end.

(** The numbers of the severities, runtime/NanoLog.h:34-59. *)
Definition level_number (l : list Z) : option Z :=
  if zlist_eqb l (chars "ERROR") then Some 1 else if zlist_eqb l (chars "WARNING") then Some 2
  else if zlist_eqb l (chars "NOTICE") then Some 3 else if zlist_eqb l (chars "DEBUG") then Some 4 else None.

(** FormatType, runtime/Log.h:439-466, named after the type with "_t" and "_ptr",
    677-681. *)
Definition format_type (t : ftype) : Z :=
  match t with
  | NONE => 0
  | unsigned_char_t => 1 | unsigned_short_int_t => 2 | unsigned_int_t => 3 | unsigned_long_int_t => 4
  | unsigned_long_long_int_t => 5 | uintmax_t_t => 6 | size_t_t => 7 | wint_t_t => 8
  | signed_char_t => 9 | short_int_t => 10 | int_t => 11 | long_int_t => 12 | long_long_int_t => 13
  | intmax_t_t => 14 | ptrdiff_t_t => 15
  | double_t => 16 | long_double_t => 17 | const_void_ptr_t => 18 | const_char_ptr_t => 19 | const_wchar_t_ptr_t => 20
  end.

(** The constants in a dictionaryFragment, 650-716: file name, its length as
    Python counts it, and for each fragment type, stars and characters. *)
Record dfrag := DFrag { df_type : ftype; df_dw : bool; df_dp : bool; df_text : list Z }.
Record dentry := DEntry {
  de_nibbles : Z; de_level : Z; de_line : Z; de_file : list Z; de_fileLen : Z; de_frags : list dfrag }.

Definition is_fstar (f : field) : bool := match f with FStar => true | _ => false end.

Definition gen_frag (f : fmttype) : option dfrag :=
  match literal (ft_sub f) with
  | Some s => Some (DFrag (ft_type f) (is_fstar (ft_width f)) (is_fstar (ft_prec f)) s)
  | None => None
  end.

(** generateLogFunctions for a statement as far as the dictionary goes.  [None]:
    the format is rejected, or a constant is not modelled. *)
Definition gen_entry (s : stmt) : option dentry :=
  match splitAndParse (st_fmt s) with
  | None => None
  | Some fs =>
    match all_some (map gen_frag fs), literal (st_file s), level_number (st_level s) with
    | Some dfs, Some file, Some level =>
        Some (DEntry (zlen (prim_idx (arg_types fs))) level (st_line s) file (zlen (st_file s) + 1) dfs)
    | _, _, _ => None
    end
  end.

(** One "Fragment", 683-703: memory and [buffer]; [None]: returns -1.  The
    argument type and the flags are bit fields of byte 0 (runtime/Log.h:411-430),
    whose last bit keeps its old value. *)
Definition write_frag (m : mem) (buffer endOfBuffer : Z) (f : dfrag) : mem * option Z :=
  let size := zlen (df_text f) + 1 in
  if endOfBuffer <=? buffer + 3 + size then (m, None)
  else
    let m1 := bf_store m buffer 0 5 (format_type (df_type f)) in
    let m2 := bf_store m1 buffer 5 1 (if df_dw f then 1 else 0) in
    let m3 := bf_store m2 buffer 6 1 (if df_dp f then 1 else 0) in
    let m4 := store m3 (buffer + 1) (le_bytes 2 size) in
    (store m4 (buffer + 3) (df_text f ++ [0]), Some (buffer + 3 + size)).

Fixpoint write_frags (m : mem) (buffer endOfBuffer : Z) (fs : list dfrag) : mem * option Z :=
  match fs with
  | [] => (m, Some buffer)
  | f :: r => match write_frag m buffer endOfBuffer f with
              | (m1, Some b1) => write_frags m1 b1 endOfBuffer r
              | (m1, None) => (m1, None)
              end
  end.

(** One dictionaryFragment, 650-705; FormatMetadata is runtime/Log.h:385-405. *)
Definition write_entry (m : mem) (buffer endOfBuffer : Z) (e : dentry) : mem * option Z :=
  if endOfBuffer <=? buffer + 9 + de_fileLen e then (m, None)
  else
    let m1 := store m buffer [to_u 8 (de_nibbles e)] in
    let m2 := store m1 (buffer + 1) [to_u 8 (zlen (de_frags e))] in
    let m3 := store m2 (buffer + 2) [to_u 8 (de_level e)] in
    let m4 := store m3 (buffer + 3) (le_bytes 4 (de_line e)) in
    let m5 := store m4 (buffer + 7) (le_bytes 2 (de_fileLen e)) in
    let m6 := store m5 (buffer + 9) (de_file e ++ [0]) in
    write_frags m6 (buffer + 9 + zlen (de_file e) + 1) endOfBuffer (de_frags e).

(** writeDictionary, 258-265: [None] instead of -1, or the new [buffer]. *)
Fixpoint write_dict (m : mem) (buffer endOfBuffer : Z) (es : list dentry) : mem * option Z :=
  match es with
  | [] => (m, Some buffer)
  | e :: r => match write_entry m buffer endOfBuffer e with
              | (m1, Some b1) => write_dict m1 b1 endOfBuffer r
              | (m1, None) => (m1, None)
              end
  end.

(** insertCheckpoint with writeDictionary = true in the preprocessor version,
    runtime/Log.cc:46-79. *)
Definition insertCheckpointDict (e : enc) (rdtsc unixTime : Z) (cps : list Z) (es : list dentry) : enc * bool :=
  match insertCheckpoint e rdtsc unixTime cps with
  | None => (e, false)
  | Some e1 =>
    match write_dict (e_mem e1) (e_wp e1) (e_end e1) es with
    | (m, None) => (Enc m (e_base e1) (e_wp e1 - 33) (e_end e1) (e_ext e1) (e_end e1), false)
    | (m, Some b) =>
      let bytesWritten := b - e_wp e1 in
      let m1 := store m (e_wp e1 - 33 + 25) (le_bytes 4 bytesWritten) in
      let m2 := store m1 (e_wp e1 - 33 + 29) (le_bytes 4 (zlen es)) in
      (Enc m2 (e_base e1) b (e_end e1) (e_ext e1) (Z.max (e_hi e1) b), true)
    end
  end.

(** ** Numbers *)

(** Python's order of strings. *)
Fixpoint str_lt (a b : list Z) : bool :=
  match a, b with
  | _, [] => false
  | [], _ :: _ => true
  | x :: a', y :: b' => (x <? y) || (x =? y) && str_lt a' b'
  end.

(** The keys of [sorted(mergedCode.items())]: a dictionary has every key once. *)
Fixpoint insert_key (k : list Z) (l : list (list Z)) : list (list Z) :=
  match l with
  | [] => [k]
  | x :: r => if str_lt k x then k :: l else if zlist_eqb k x then l else x :: insert_key k r
  end.
Definition sorted_keys (t : table) : list (list Z) := fold_right insert_key [] (map fst t).

(** The identifiers in the order of their numbers, 213-247. *)
Definition ids (units : list (list stmt)) : list (list Z) :=
  filter (fun k => negb (zlist_eqb k invalid_key)) (sorted_keys (merge units)).

(** The statements the entries of the dictionary are made from, 218-219. *)
Definition entries (units : list (list stmt)) : list (option stmt) :=
  map (fun k => lookup k (merge units)) (ids units).

(** Their constants. *)
Definition program_dict (units : list (list stmt)) : option (list dentry) :=
  all_some (map (fun o => match o with Some s => gen_entry s | None => None end) (entries units)).

(** The number of a statement: the position of its identifier, 223-229. *)
Fixpoint position (k : list Z) (l : list (list Z)) : option nat :=
  match l with
  | [] => None
  | x :: r => if zlist_eqb k x then Some O else option_map S (position k r)
  end.
Definition number (units : list (list stmt)) (s : stmt) : option nat :=
  position (log_id (st_fmt s) (st_file s) (st_line s)) (ids units).
