(** Decompressing with an aggregation function, in a decompressor that was linked
    with the generated code of a program (PREPROCESSOR_NANOLOG): the generated
    decompression functions print the messages and call the function for those of
    one statement. *)
From Verif Require Import Base Packer LogHeader Chars Fmt MicroCode Args Printf Decode Encoder Decoder Ordered MetaDict MicroMem MemDecoder Preproc GenCode.

(** The part of a generated decompression function before it prints,
    preprocessor/FunctionGenerator.py:557-592 and 606-617: arg0, arg1, ... and
    [*in] afterwards. *)
Definition gen_unpack (types : list ftype) (m : mem) (in_ lim : Z) : option (list va * Z) :=
  match unpack_prims m in_ 0 (in_ + (zlen (prim_idx types) + 1) / 2) types (prim_idx types) with
  | None => None
  | Some (l, p) =>
    match find_strs m lim p types (string_idx types) with
    | None => None
    | Some (l', e) =>
      match all_some (map (fun i => val_of i (l ++ l')) (seq 0 (length types))) with
      | None => None
      | Some vs => Some (vs, e)
      end
    end
  end.

(** logId2Metadata and decompressAndPrintFnArray, FunctionGenerator.py:217-242 and
    248-267, in the order of the numbers: the file name, line and severity; the
    types of the arguments; the format.  [None]: a constant is not modelled
    (GenCode.v). *)
Record genfn := GenFn { gf_file : list Z; gf_line : Z; gf_level : Z; gf_types : list ftype; gf_fmt : list Z }.

Definition gen_fn (s : stmt) : option genfn :=
  match splitAndParse (st_fmt s), literal (st_fmt s), literal (st_file s), level_number (st_level s) with
  | Some fs, Some fmt, Some file, Some level => Some (GenFn file (st_line s) level (arg_types fs) fmt)
  | _, _, _, _ => None
  end.

Definition fnArray (units : list (list stmt)) : list (option genfn) :=
  map (fun o => match o with Some s => gen_fn s | None => None end) (entries units).

(** The call of a generated function with an output file,
    FunctionGenerator.py:624-628: the text, the arguments of the call of aggFn (if
    it is not null), [*in].  The literals of the two calls are the same, up to the
    line end. *)
Definition gen_run (conv : rconv -> list Z) (g : genfn) (m : mem) (in_ lim : Z) (aggFn : bool)
    : option (list Z * option (list Z * list va) * Z) :=
  match gen_unpack (gf_types g) m in_ lim with
  | None => None
  | Some (vs, e) =>
    match printf conv (gf_fmt g) vs with
    | None => None
    | Some t => Some (t, if aggFn then Some (gf_fmt g, vs) else None, e)
    end
  end.

(** decompressNextLogStatement with [filter] = aggregationFilterId and
    aggregationFn not null exactly if [agg], runtime/Log.cc:1315-1401 and
    1661-1680: the fragment, the message, the arguments of the call of the
    aggregation function.  [None]: as in MemDecoder.v; or logId2Metadata is read
    behind its end (1369-1370, before the test of 1386).  Where that read does no
    harm the function returns false and leaves the fragment as it is, so that the
    loop of 1747 calls it again, forever.  LogMessage is not touched. *)
Definition ag_decompressNext (lim : Z) (conv : rconv -> list Z) (units : list (list stmt)) (filter : Z) (agg : bool)
    (st : metas) (b : bfrag) : option (bfrag * option (dmsg * option (list Z * list va))) :=
  if (bf_end b <? bf_pos b) || negb (bf_more b)
  then Some (BFrag (bf_mem b) (bf_valid b) (bf_tid b) (bf_pos b) (bf_end b) false (bf_id b) (bf_ts b), None)
  else if is_empty (ms_at st) || agg then
    match nth_error (fnArray units) (Z.to_nat (bf_id b)) with
    | Some (Some g) =>
      match gen_run conv g (bf_mem b) (bf_pos b) STORAGE (agg && (filter =? bf_id b)) with
      | None => None
      | Some (text, called, pos) =>
        let dm := DMsg (bf_id b) (bf_ts b) (bf_tid b) (gf_file g) (gf_line g) (gf_level g) text [] in
        let done := BFrag (bf_mem b) (bf_valid b) (bf_tid b) pos (bf_end b) false (bf_id b) (bf_ts b) in
        if bf_end b <=? pos then Some (done, Some (dm, called))
        else
          match decompressLogHeader (bf_mem b) pos (bf_ts b) with
          | Some (id, ts, pos') =>
              Some (BFrag (bf_mem b) (bf_valid b) (bf_tid b) pos' (bf_end b) true id ts, Some (dm, called))
          | None => Some (done, Some (dm, called))
          end
      end
    | _ => None
    end
  else
    match m_decompressNext lim conv st b with
    | None => None
    | Some (b', o) => Some (b', option_map (fun dm => (dm, None)) o)
    end.

(** What happens: a line is printed and perhaps the function called. *)
Inductive aevent := AvMsg (cp : checkpoint) (m : dmsg) (called : option (list Z * list va)) | AvNewExecution.

(** while (bf->hasNext()) decompressNextLogStatement, Log.cc:1747-1755. *)
Fixpoint ag_drain (lim : Z) (conv : rconv -> list Z) (units : list (list stmt)) (filter : Z) (agg : bool) (fuel : nat)
    (cp : checkpoint) (st : metas) (b : bfrag) : option (bfrag * list aevent) :=
  match fuel with
  | O => None
  | S n =>
    if bf_more b then
      match ag_decompressNext lim conv units filter agg st b with
      | None => None
      | Some (b', o) =>
        match ag_drain lim conv units filter agg n cp st b' with
        | None => None
        | Some (b'', evs) => Some (b'', match o with Some (dm, c) => AvMsg cp dm c :: evs | None => evs end)
        end
      end
    else Some (b, [])
  end.

Definition amsgs_in (evs : list aevent) : Z :=
  zlen (List.filter (fun e => match e with AvMsg _ _ _ => true | AvNewExecution => false end) evs).

(** The loop of internalDecompressUnordered, Log.cc:1734-1775. *)
Fixpoint ag_loop (lim : Z) (conv : rconv -> list Z) (units : list (list stmt)) (filter : Z) (agg : bool) (fuel : nat)
    (d : mdecoder) (b : bfrag) : option (mdecoder * bfrag * list aevent) :=
  match fuel with
  | O => None
  | S n =>
    if f_eof (md_file d) || negb (md_good d) then Some (d, b, [])
    else
      let '(entry, f) := peekEntryType (md_file d) in
      let with_ f' printed good cp st := MDecoder (md_open d) f' printed (md_bf d) good cp (md_free d) st in
      if entry =? ET_BUFFER_EXTENT then
        match readBufferExtent f b with
        | None => None
        | Some (f', b', ok, _) =>
          if ok then
            match ag_drain lim conv units filter agg (S (S (Z.to_nat (bf_end b' - bf_pos b')))) (md_cp d) (md_st d) b' with
            | None => None
            | Some (b'', evs) =>
              match ag_loop lim conv units filter agg n (with_ f' (md_printed d + amsgs_in evs) (md_good d) (md_cp d) (md_st d)) b'' with
              | None => None
              | Some (d', b3, evs') => Some (d', b3, evs ++ evs')
              end
            end
          else ag_loop lim conv units filter agg n (with_ f' (md_printed d) (md_good d) (md_cp d) (md_st d)) b'
        end
      else if entry =? ET_CHECKPOINT then
        match read_dictionary lim true (md_cp d) (md_st d) f with
        | None => None
        | Some (f', cp, st, ok) =>
          match ag_loop lim conv units filter agg n (with_ f' (md_printed d) ok cp st) b with
          | None => None
          | Some (d', b', evs) => Some (d', b', if ok then AvNewExecution :: evs else evs)
          end
        end
      else if entry =? ET_LOG_MSGS_OR_DIC then
        match read_fragment lim f (md_st d) with
        | None => None
        | Some (f', st, ok) => ag_loop lim conv units filter agg n (with_ f' (md_printed d) ok (md_cp d) st) b
        end
      else ag_loop lim conv units filter agg n
             (with_ (skip_padding (S (length (f_rest f))) f) (md_printed d) (md_good d) (md_cp d) (md_st d)) b
  end.

(** internalDecompressUnordered, Log.cc:1724-1783, with an output file: the
    decoder, what happens, the result.  (decompressUnordered calls it without
    aggregation function and returns logMsgsPrinted.) *)
Definition ag_internalDecompressUnordered (lim : Z) (conv : rconv -> list Z) (units : list (list stmt)) (filter : Z) (agg : bool)
    (d : mdecoder) : option (mdecoder * list aevent * bool) :=
  if negb (md_open d) then Some (d, [], false)
  else
    let '(b, free) := allocateBufferFragment (md_free d) in
    let d1 := MDecoder (md_open d) (md_file d) (md_printed d) (md_bf d) (md_good d) (md_cp d) free (md_st d) in
    match ag_loop lim conv units filter agg (S (S (length (f_rest (md_file d))))) d1 b with
    | None => None
    | Some (d2, b', evs) =>
      Some (MDecoder (md_open d2) (md_file d2) (md_printed d2) (md_bf d2) (md_good d2) (md_cp d2)
              (freeBufferFragment b' (md_free d2)) (md_st d2), evs, md_good d2)
    end.
