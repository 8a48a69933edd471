(** The decompressor with its dictionary as it lies in memory: createMicroCode
    writing to rawMetadata, runtime/Log.cc:825-979, readDictionaryFragment,
    Log.cc:990-1075, and the functions that look an id up, Log.cc:1392-1430,
    1724-1783, 1799-1967 and 1987-2057.  MicroCode.v and Decoder.v have the
    dictionary as a list of values instead; MetaDict.v has readDictionary and
    the reading of an entry through its pointer.

    rawMetadata is a memory object of [lim] bytes starting at offset 0; in the
    program [lim] is 2^30 (Log.cc:619-620).  [None]: a write outside it, besides
    the meanings in Decoder.v. *)
From Verif Require Import Base Packer LogHeader Chars Fmt Regex MicroCode Args Printf Decode Encoder Decoder Ordered MetaDict.

Definition RAW_METADATA := 1024 * 1024 * 1024.

Definition put (lim : Z) (m : mem) (a : Z) (bs : list Z) : option mem :=
  if (0 <=? a) && (a + zlen bs <=? lim) then Some (store m a bs) else None.

(** Assignments one after the other. *)
Fixpoint puts (lim : Z) (m : mem) (ws : list (Z * list Z)) : option mem :=
  match ws with
  | [] => Some m
  | (a, bs) :: r => match put lim m a bs with
                    | Some m' => puts lim m' r
                    | None => None
                    end
  end.

(** FormatType, Log.h:439-466. *)
Definition type_number (t : ftype) : Z :=
  match t with
  | NONE => 0
  | unsigned_char_t => 1 | unsigned_short_int_t => 2 | unsigned_int_t => 3 | unsigned_long_int_t => 4
  | unsigned_long_long_int_t => 5 | uintmax_t_t => 6 | size_t_t => 7 | wint_t_t => 8
  | signed_char_t => 9 | short_int_t => 10 | int_t => 11 | long_int_t => 12 | long_long_int_t => 13
  | intmax_t_t => 14 | ptrdiff_t_t => 15
  | double_t => 16 | long_double_t => 17 | const_void_ptr_t => 18 | const_char_ptr_t => 19 | const_wchar_t_ptr_t => 20
  end.

(** The first byte of a PrintFragment, Log.h:411-420, after its three bit fields
    are set; the eighth bit stays as it was. *)
Definition pf_head (old : Z) (t : ftype) (dw dp : bool) : Z :=
  type_number t + (if dw then 32 else 0) + (if dp then 64 else 0) + 128 * bf_get old 7 1.

(** ++fm->numNibbles and ++fm->numPrintFragments, both uint8_t. *)
Definition bump (yes : bool) (lim : Z) (m : mem) (a : Z) : option mem :=
  if yes then put lim m a [to_u 8 (m a + 1)] else Some m.

(** Writing a fragment, Log.cc:891-894, 911-945: memory and *microCode.  [text]
    is what memcpy copies, with the byte that is set to NUL afterwards. *)
Definition write_fragment (lim fm : Z) (m : mem) (pf : Z) (t : ftype) (dw dp nib : bool) (fragmentLength : Z) (text : list Z)
    : option (mem * Z) :=
  match puts lim m [(pf, [pf_head (m pf) t dw dp]); (pf + 1, le_bytes 2 fragmentLength); (pf + 3, text);
                    (pf + 3 + fragmentLength - 1, [0])] with
  | None => None
  | Some m1 =>
    match bump nib lim m1 fm with
    | None => None
    | Some m2 =>
      match bump dw lim m2 fm with
      | None => None
      | Some m3 =>
        match bump dp lim m3 fm with
        | None => None
        | Some m4 => option_map (fun m5 => (m5, pf + 3 + fragmentLength)) (bump true lim m4 (fm + 1))
        end
      end
    end
  end.

(** The scan loop, Log.cc:866-945: memory and, unless there was an unsupported
    specifier, *microCode, startOfNextFragment and pf. *)
Fixpoint micro_scan (fuel : nat) (lim fm : Z) (fmt : list Z) (i startOfNextFragment consecutivePercents : Z)
    (pf : option Z) (m : mem) (pos : Z) : option (mem * option (Z * Z * option Z)) :=
  match fuel with
  | O => None
  | S n =>
    if zlen fmt + 1 <=? i then Some (m, Some (pos, startOfNextFragment, pf))
    else
      let c := nth (Z.to_nat i) (fmt ++ [0]) 0 in
      if c =? c_bsl then micro_scan n lim fm fmt (i + 2) startOfNextFragment consecutivePercents pf m pos
      else if negb (c =? c_pct) then micro_scan n lim fm fmt (i + 1) startOfNextFragment 0 pf m pos
      else
        let cp := consecutivePercents + 1 in
        match (if cp mod 2 =? 0 then None else rx_first spec_re (skipn (Z.to_nat i) fmt)) with
        | None => micro_scan n lim fm fmt (i + 1) startOfNextFragment cp pf m pos
        | Some (RM g matched _) =>
          let i' := i + zlen matched in
          let specifier := hd0 (group 6 g) in
          match getFormatType (group 5 g) specifier with
          | None => Some (m, None)
          | Some t =>
            let fragmentLength := to_u 16 (i' - startOfNextFragment + 1) in
            match write_fragment lim fm m pos t (starts_star (group 2 g)) (starts_star (group 4 g))
                    (negb (specifier =? ch "s")) fragmentLength (slice startOfNextFragment fragmentLength (fmt ++ [0])) with
            | None => None
            | Some (m', pos') => micro_scan n lim fm fmt i' i' 0 (Some pos) m' pos'
            end
          end
        end
  end.

(** createMicroCode, Log.cc:825-979: memory, *microCode and the result.
    [None] also: downCast fails (Common.h:53-62). *)
Definition create_micro_code (lim : Z) (m : mem) (fm : Z) (fmt filename : list Z) (linenum severity : Z)
    : option (mem * Z * bool) :=
  match puts lim m [(fm + 2, [severity]); (fm + 3, le_bytes 4 linenum); (fm + 7, le_bytes 2 (zlen filename + 1));
                    (fm + 9, filename ++ [0]); (fm, [0]); (fm + 1, [0])] with
  | None => None
  | Some m1 =>
    match micro_scan (length fmt + 2) lim fm fmt 0 0 0 None m1 (fm + 9 + zlen filename + 1) with
    | None => None
    | Some (m2, None) => Some (m2, fm, false)
    | Some (m2, Some (pos, start, None)) =>
      if zlen fmt + 1 <? 2 ^ 16 then
        option_map (fun m3 => (m3, pos + 3 + (zlen fmt + 1), true))
          (puts lim m2 [(fm + 1, [1]); (pos, [pf_head (m2 pos) NONE false false]); (pos + 1, le_bytes 2 (zlen fmt + 1));
                        (pos + 3, fmt ++ [0])])
      else None
    | Some (m2, Some (pos, start, Some pf)) =>
      let endingLength := zlen fmt + 1 - start in
      let fragmentLength := le_val (load m2 (pf + 1) 2) in
      if fragmentLength - 1 + endingLength <? 2 ^ 16 then
        option_map (fun m3 => (m3, pos + endingLength, true))
          (puts lim m2 [(pf + 3 + fragmentLength - 1, skipn (Z.to_nat start) (fmt ++ [0]));
                        (pf + 1, le_bytes 2 (fragmentLength - 1 + endingLength))])
      else None
    end
  end.

(** The loop of readDictionaryFragment, Log.cc:1013-1066. *)
Fixpoint fragment_loop (fuel : nat) (lim bytesRead newMetadataBytes : Z) (f : file) (st : metas) : option (file * metas * bool) :=
  match fuel with
  | O => None
  | S n =>
    if negb ((bytesRead <? newMetadataBytes) && negb (f_eof f)) then Some (f, st, true)
    else
      let '(cli, f1) := fread 9 f in
      if zlen cli <? 9 then Some (f1, st, false)
      else
        let filenameLength := le_val (slice 5 2 cli) in
        let formatStringLength := le_val (slice 7 2 cli) in
        let '(fb, f2) := fread filenameLength f1 in
        let '(sb, f3) := fread formatStringLength f2 in
        let newBytesRead := 9 + zlen fb + zlen sb in
        if negb (newBytesRead =? 9 + filenameLength + formatStringLength) then Some (f3, st, false)
        else
          match cstring fb, cstring sb with
          | Some filename, Some format =>
            match create_micro_code lim (ms_mem st) (ms_end st) format filename (le_val (slice 1 4 cli)) (le_val (slice 0 1 cli)) with
            | None => None
            | Some (m, e, _) =>
              fragment_loop n lim (bytesRead + newBytesRead) newMetadataBytes f3
                (Metas m e (ms_at st ++ [ms_end st]) (ms_fmts st ++ [format]))
            end
          | _, _ => None
          end
  end.

(** readDictionaryFragment, Log.cc:990-1075. *)
Definition read_fragment (lim : Z) (f : file) (st : metas) : option (file * metas * bool) :=
  let '(df, f1) := fread 8 f in
  if zlen df <? 8 then Some (f1, st, false)
  else if negb (entryType (nth 0 df 0) =? ET_LOG_MSGS_OR_DIC) then None
  else fragment_loop (S (length (f_rest f1))) lim 8 (le_val (slice 0 4 df) / 4) f1 st.

(** fmtId2metadata.at(id) and what is read through the pointer, Log.cc:1398-1430. *)
Definition metadata_of (lim : Z) (st : metas) (id : Z) : option microcode :=
  match nth_error (ms_at st) (Z.to_nat id) with
  | None => None
  | Some p => microcode_at lim (ms_mem st) p
  end.
