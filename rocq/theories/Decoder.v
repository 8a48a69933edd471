(** Model of the decompressor's file reading: runtime/Log.cc:600-707, 990-1237,
    1315-1330, 1660-1783 and 1987-2075, runtime/Log.h:497-507 and 602-611
    (decompressTo is in Ordered.v).

    Left out: statistics, texts printed to stderr, the wall-clock text in front
    of a message (TimeFmt.v), and dictionaries stored in the checkpoint, which
    only the preprocessor version writes (MetaDict.v). *)
From Verif Require Import Base Packer LogHeader Chars Fmt MicroCode Args Printf Decode Encoder.

(** A FILE opened for reading: the bytes ahead and the end-of-file indicator. *)
Record file := File { f_rest : list Z; f_eof : bool }.

(** fread(p, 1, n, fd): the bytes read. *)
Definition fread (n : Z) (f : file) : list Z * file :=
  let got := firstn (Z.to_nat n) (f_rest f) in
  (got, File (skipn (Z.to_nat n) (f_rest f)) (f_eof f || (zlen got <? n))).

(** fgetc, the character left out. *)
Definition fgetc (f : file) : file :=
  match f_rest f with
  | [] => File [] true
  | _ :: r => File r (f_eof f)
  end.

(** peekEntryType, Log.h:497-507: fgetc and ungetc; pushing back a character
    clears the end-of-file indicator, pushing back EOF does nothing. *)
Definition peekEntryType (f : file) : Z * file :=
  match f_rest f with
  | [] => (ET_INVALID, File [] true)
  | b :: _ => (entryType b, File (f_rest f) false)
  end.

(** Consuming padding, Log.cc:1767-1770, 1879-1882 and 2041-2044. *)
Fixpoint skip_padding (fuel : nat) (f : file) : file :=
  match fuel with
  | O => f
  | S n =>
    if f_eof f then f
    else let '(t, f') := peekEntryType f in
         if t =? ET_INVALID then skip_padding n (fgetc f') else f'
  end.

(** Checkpoint, Log.h:309-341; cyclesPerSecond is kept as its bytes. *)
Record checkpoint := Checkpoint { cp_rdtsc : Z; cp_unixTime : Z; cp_cps : list Z }.

(** An entry of fmtId2fmtString and fmtId2metadata.  Without micro code the
    metadata pointer is that of the next entry. *)
Record dentry := DEntry { de_fmt : list Z; de_mc : option microcode }.

Definition slice (off n : Z) (l : list Z) : list Z := firstn (Z.to_nat n) (skipn (Z.to_nat off) l).

(** readDictionary with flushOldDictionary, Log.cc:646-707, for a checkpoint
    without metadata, and readCheckpoint, Log.h:602-611.  [None]: a failed
    assertion, or a checkpoint with metadata. *)
Definition readDictionary (cp : checkpoint) (dict : list dentry) (f : file)
    : option (file * checkpoint * list dentry * bool) :=
  let '(b, f') := fread 33 f in
  if zlen b <? 33 then Some (f', cp, dict, false)
  else if negb (entryType (nth 0 b 0) =? ET_CHECKPOINT) then None
  else
    let cp' := Checkpoint (le_val (slice 1 8 b)) (le_val (slice 9 8 b)) (slice 17 8 b) in
    if negb (le_val (slice 25 4 b) =? 0) then None
    else Some (f', cp', [], le_val (slice 29 4 b) =? 0).

(** The C string at the start of a buffer.  [None]: no NUL was read. *)
Fixpoint cstring (b : list Z) : option (list Z) :=
  match b with
  | [] => None
  | c :: r => if c =? 0 then Some [] else option_map (cons c) (cstring r)
  end.

(** The loop of readDictionaryFragment, Log.cc:1013-1066; CompressedLogInfo,
    Log.h:362-381, has severity, line, and the lengths of the two strings. *)
Fixpoint dict_fragment_loop (fuel : nat) (bytesRead newMetadataBytes : Z) (f : file) (dict : list dentry)
    : option (file * list dentry * bool) :=
  match fuel with
  | O => None
  | S n =>
    if negb ((bytesRead <? newMetadataBytes) && negb (f_eof f)) then Some (f, dict, true)
    else
      let '(cli, f1) := fread 9 f in
      if zlen cli <? 9 then Some (f1, dict, false)
      else
        let filenameLength := le_val (slice 5 2 cli) in
        let formatStringLength := le_val (slice 7 2 cli) in
        let '(fb, f2) := fread filenameLength f1 in
        let '(sb, f3) := fread formatStringLength f2 in
        let newBytesRead := 9 + zlen fb + zlen sb in
        if negb (newBytesRead =? 9 + filenameLength + formatStringLength) then Some (f3, dict, false)
        else
          match cstring fb, cstring sb with
          | Some filename, Some format =>
              dict_fragment_loop n (bytesRead + newBytesRead) newMetadataBytes f3
                (dict ++ [DEntry format (createMicroCode format filename (le_val (slice 1 4 cli)) (le_val (slice 0 1 cli)))])
          | _, _ => None
          end
  end.

(** readDictionaryFragment, Log.cc:990-1075; DictionaryFragment, Log.h:343-359:
    entryType in two bits, newMetadataBytes in thirty. *)
Definition readDictionaryFragment (f : file) (dict : list dentry) : option (file * list dentry * bool) :=
  let '(df, f1) := fread 8 f in
  if zlen df <? 8 then Some (f1, dict, false)
  else if negb (entryType (nth 0 df 0) =? ET_LOG_MSGS_OR_DIC) then None
  else dict_fragment_loop (S (length (f_rest f1))) 8 (le_val (slice 0 4 df) / 4) f1 dict.

(** BufferFragment, Log.h:882-925.  Positions are offsets in the storage; after
    reset() readPos and endOfBuffer are null, here 0. *)
Record bfrag := BFrag {
  bf_mem : mem; bf_valid : Z; bf_tid : Z; bf_pos : Z; bf_end : Z;
  bf_more : bool; bf_id : Z; bf_ts : Z
}.

(** sizeof(storage), Log.h:887-888. *)
Definition STORAGE := STAGING_BUFFER_SIZE + 9.

(** Log.cc:1155-1178. *)
Definition new_bfrag : bfrag := BFrag (fun _ => 0) 0 (2 ^ 32 - 1) 0 0 false (2 ^ 32 - 1) 0.

Definition bf_reset (b : bfrag) : bfrag :=
  BFrag (bf_mem b) 0 (2 ^ 32 - 1) 0 0 false (bf_id b) (bf_ts b).

(** readBufferExtent, Log.cc:1192-1237: file, fragment, result, *wrapAround
    (which was false before).  BufferExtent, Log.h:270-307: entryType:2,
    wrapAround:1, isShort:1, threadIdOrPackNibble:4, then the length. *)
Definition readBufferExtent (f : file) (b : bfrag) : option (file * bfrag * bool * bool) :=
  let '(h, f1) := fread 5 f in
  let m1 := store (bf_mem b) 0 h in
  let b1 := BFrag m1 (zlen h) (bf_tid b) (bf_pos b) (bf_end b) (bf_more b) (bf_id b) (bf_ts b) in
  let length := le_val (load m1 1 4) in
  if negb (entryType (m1 0) =? ET_BUFFER_EXTENT) || (zlen h <? 5) || (STORAGE <? length)
  then Some (f1, bf_reset b1, false, false)
  else if length <? zlen h then None
  else
    let '(r, f2) := fread (length - zlen h) f1 in
    let m2 := store m1 5 r in
    let valid := zlen h + zlen r in
    let b2 := BFrag m2 valid (bf_tid b) (bf_pos b) (bf_end b) (bf_more b) (bf_id b) (bf_ts b) in
    if negb (valid =? length) then Some (f2, bf_reset b2, false, false)
    else
      let nib := bf_get (m2 0) 4 4 in
      let '(tid, pos) := if negb (bf_get (m2 0) 3 1 =? 0) then (nib, 5) else unpack_int (Ity false 4) m2 5 nib in
      let wrap := negb (bf_get (m2 0) 2 1 =? 0) in
      if pos =? valid then Some (f2, BFrag m2 valid tid pos valid false (bf_id b) (bf_ts b), true, wrap)
      else
        match decompressLogHeader m2 pos 0 with
        | Some (id, ts, pos') => Some (f2, BFrag m2 valid tid pos' valid true id ts, true, wrap)
        | None => Some (f2, bf_reset (BFrag m2 valid tid pos valid false (bf_id b) (bf_ts b)), false, wrap)
        end.

(** The metadata an entry points to; an entry without micro code shares the
    position of the next one.  [None]: what lies behind the last entry. *)
Fixpoint metadata_at (dict : list dentry) (i : nat) : option microcode :=
  match dict with
  | [] => None
  | d :: r =>
    match i with
    | S j => metadata_at r j
    | O => match de_mc d with
           | Some mc => Some mc
           | None => metadata_at r O
           end
    end
  end.

(** What is printed for one message, apart from the time. *)
Record dmsg := DMsg {
  dm_id : Z; dm_ts : Z; dm_tid : Z; dm_file : list Z; dm_line : Z; dm_level : Z;
  dm_text : list Z; dm_args : list va
}.

(** decompressNextLogStatement, Log.cc:1315-1680 (the body is print_message):
    the fragment and the message, none if there is none.  [None]: the id is not
    in the dictionary (std::vector::at throws) or the body is malformed. *)
Definition decompressNext (conv : rconv -> list Z) (dict : list dentry) (b : bfrag) : option (bfrag * option dmsg) :=
  if (bf_end b <? bf_pos b) || negb (bf_more b)
  then Some (BFrag (bf_mem b) (bf_valid b) (bf_tid b) (bf_pos b) (bf_end b) false (bf_id b) (bf_ts b), None)
  else
    match metadata_at dict (Z.to_nat (bf_id b)) with
    | None => None
    | Some mc =>
      match print_message conv mc (bf_mem b) (bf_pos b) STORAGE with
      | None => None
      | Some (text, pushed, pos) =>
        let dm := DMsg (bf_id b) (bf_ts b) (bf_tid b) (mc_file mc) (mc_line mc) (mc_level mc) text pushed in
        let done := BFrag (bf_mem b) (bf_valid b) (bf_tid b) pos (bf_end b) false (bf_id b) (bf_ts b) in
        if bf_end b <=? pos then Some (done, Some dm)
        else
          match decompressLogHeader (bf_mem b) pos (bf_ts b) with
          | Some (id, ts, pos') => Some (BFrag (bf_mem b) (bf_valid b) (bf_tid b) pos' (bf_end b) true id ts, Some dm)
          | None => Some (done, Some dm)
          end
      end
    end.

(** What is written to the output. *)
Inductive event := EvMsg (cp : checkpoint) (m : dmsg) | EvNewExecution.

(** The decoder, Log.h:946-990.  [d_open]: a file name was stored and inputFd is
    not null. *)
Record decoder := Decoder {
  d_open : bool; d_file : file; d_printed : Z; d_bf : bfrag; d_good : bool;
  d_cp : checkpoint; d_free : list bfrag; d_dict : list dentry
}.

Definition new_decoder : decoder :=
  Decoder false (File [] false) 0 new_bfrag false (Checkpoint 0 0 (repeat 0 8)) [] [].

(** open, Log.cc:1085-1105: the decoder and the result. *)
Definition d_open_file (d : decoder) (content : list Z) : option (decoder * bool) :=
  match readDictionary (d_cp d) (d_dict d) (File content false) with
  | None => None
  | Some (f, cp, dict, true) => Some (Decoder true f 0 (d_bf d) true cp (d_free d) dict, true)
  | Some (f, cp, dict, false) => Some (Decoder false f (d_printed d) (d_bf d) false cp (d_free d) dict, false)
  end.

(** allocateBufferFragment, Log.cc:1128-1138: the last one freed, or a new one. *)
Definition allocateBufferFragment (free : list bfrag) : bfrag * list bfrag :=
  match free with
  | [] => (new_bfrag, [])
  | b :: r => (b, r)
  end.

(** freeBufferFragment, Log.cc:1146-1150. *)
Definition freeBufferFragment (b : bfrag) (free : list bfrag) : list bfrag := bf_reset b :: free.

(** while (bf->hasNext()) decompressNextLogStatement, Log.cc:1747-1755. *)
Fixpoint drain_fragment (conv : rconv -> list Z) (fuel : nat) (cp : checkpoint) (dict : list dentry) (b : bfrag)
    : option (bfrag * list event) :=
  match fuel with
  | O => None
  | S n =>
    if bf_more b then
      match decompressNext conv dict b with
      | None => None
      | Some (b', o) =>
        match drain_fragment conv n cp dict b' with
        | None => None
        | Some (b'', evs) => Some (b'', match o with Some dm => EvMsg cp dm :: evs | None => evs end)
        end
      end
    else Some (b, [])
  end.

Definition msgs_in (evs : list event) : Z :=
  zlen (filter (fun e => match e with EvMsg _ _ => true | EvNewExecution => false end) evs).

(** The loop of internalDecompressUnordered, Log.cc:1734-1775, with the fragment
    it uses.  An iteration consumes at least a byte or meets the end of the
    file. *)
Fixpoint unordered_loop (conv : rconv -> list Z) (fuel : nat) (d : decoder) (b : bfrag)
    : option (decoder * bfrag * list event) :=
  match fuel with
  | O => None
  | S n =>
    if f_eof (d_file d) || negb (d_good d) then Some (d, b, [])
    else
      let '(entry, f) := peekEntryType (d_file d) in
      let with_ f' printed good cp dict := Decoder (d_open d) f' printed (d_bf d) good cp (d_free d) dict in
      if entry =? ET_BUFFER_EXTENT then
        match readBufferExtent f b with
        | None => None
        | Some (f', b', ok, _) =>
          if ok then
            match drain_fragment conv (S (S (Z.to_nat (bf_end b' - bf_pos b')))) (d_cp d) (d_dict d) b' with
            | None => None
            | Some (b'', evs) =>
              match unordered_loop conv n (with_ f' (d_printed d + msgs_in evs) (d_good d) (d_cp d) (d_dict d)) b'' with
              | None => None
              | Some (d', b3, evs') => Some (d', b3, evs ++ evs')
              end
            end
          else unordered_loop conv n (with_ f' (d_printed d) (d_good d) (d_cp d) (d_dict d)) b'
        end
      else if entry =? ET_CHECKPOINT then
        match readDictionary (d_cp d) (d_dict d) f with
        | None => None
        | Some (f', cp, dict, ok) =>
          match unordered_loop conv n (with_ f' (d_printed d) ok cp dict) b with
          | None => None
          | Some (d', b', evs) => Some (d', b', if ok then EvNewExecution :: evs else evs)
          end
        end
      else if entry =? ET_LOG_MSGS_OR_DIC then
        match readDictionaryFragment f (d_dict d) with
        | None => None
        | Some (f', dict, ok) => unordered_loop conv n (with_ f' (d_printed d) ok (d_cp d) dict) b
        end
      else unordered_loop conv n (with_ (skip_padding (S (length (f_rest f))) f) (d_printed d) (d_good d) (d_cp d) (d_dict d)) b
  end.

(** decompressUnordered, Log.cc:2071-2075 and 1724-1783: the decoder, what is
    written, the result. *)
Definition decompressUnordered (conv : rconv -> list Z) (d : decoder) : option (decoder * list event * Z) :=
  if negb (d_open d) then Some (d, [], -1)
  else
    let '(b, free) := allocateBufferFragment (d_free d) in
    let d1 := Decoder (d_open d) (d_file d) (d_printed d) (d_bf d) (d_good d) (d_cp d) free (d_dict d) in
    match unordered_loop conv (S (S (length (f_rest (d_file d))))) d1 b with
    | None => None
    | Some (d2, b', evs) =>
      Some (Decoder (d_open d2) (d_file d2) (d_printed d2) (d_bf d2) (d_good d2) (d_cp d2)
              (freeBufferFragment b' (d_free d2)) (d_dict d2),
            evs, if d_good d2 then d_printed d2 else -1)
    end.

(** The search of getNextLogStatement for the next extent with messages,
    Log.cc:2008-2047; true: the function returned false inside the loop. *)
Fixpoint next_extent (fuel : nat) (d : decoder) : option (decoder * list event * bool) :=
  match fuel with
  | O => None
  | S n =>
    if bf_more (d_bf d) || f_eof (d_file d) || negb (d_good d) then Some (d, [], false)
    else
      let '(entry, f) := peekEntryType (d_file d) in
      let with_ f' bf good cp dict := Decoder (d_open d) f' (d_printed d) bf good cp (d_free d) dict in
      if entry =? ET_BUFFER_EXTENT then
        match readBufferExtent f (d_bf d) with
        | None => None
        | Some (f', b', ok, _) =>
          if ok then next_extent n (with_ f' b' (d_good d) (d_cp d) (d_dict d))
          else Some (with_ f' b' false (d_cp d) (d_dict d), [], true)
        end
      else if entry =? ET_CHECKPOINT then
        match readDictionary (d_cp d) (d_dict d) f with
        | None => None
        | Some (f', cp, dict, ok) =>
          if ok then
            match next_extent n (with_ f' (d_bf d) (d_good d) cp dict) with
            | None => None
            | Some (d', evs, r) => Some (d', EvNewExecution :: evs, r)
            end
          else Some (with_ f' (d_bf d) false cp dict, [], true)
        end
      else if entry =? ET_LOG_MSGS_OR_DIC then
        match readDictionaryFragment f (d_dict d) with
        | None => None
        | Some (f', dict, ok) => next_extent n (with_ f' (d_bf d) ok (d_cp d) dict)
        end
      else next_extent n (with_ (skip_padding (S (length (f_rest f))) f) (d_bf d) (d_good d) (d_cp d) (d_dict d))
  end.

Definition next_from (conv : rconv -> list Z) (d : decoder) : option (decoder * list event * bool) :=
  match decompressNext conv (d_dict d) (d_bf d) with
  | None => None
  | Some (b, o) =>
    let d' k := Decoder (d_open d) (d_file d) (d_printed d + k) b (d_good d) (d_cp d) (d_free d) (d_dict d) in
    match o with
    | Some dm => Some (d' 1, [EvMsg (d_cp d) dm], true)
    | None => Some (d' 0, [], false)
    end
  end.

(** getNextLogStatement, Log.cc:1987-2057: the decoder, what is written, the
    result. *)
Definition getNextLogStatement (conv : rconv -> list Z) (d : decoder) : option (decoder * list event * bool) :=
  if bf_more (d_bf d) then
    match next_from conv d with
    | None => None
    | Some (d', evs, _) => Some (d', evs, true)
    end
  else if negb (d_open d) || f_eof (d_file d) || negb (d_good d) then Some (d, [], false)
  else
    match next_extent (S (S (length (f_rest (d_file d))))) d with
    | None => None
    | Some (d1, evs1, true) => Some (d1, evs1, false)
    | Some (d1, evs1, false) =>
      match next_from conv d1 with
      | None => None
      | Some (d2, evs2, r) => Some (d2, evs1 ++ evs2, r)
      end
    end.
