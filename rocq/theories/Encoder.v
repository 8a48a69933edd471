(** Model of Log::Encoder and Log::insertCheckpoint, runtime/Log.cc:46-495. *)
From Verif Require Import Base Packer LogHeader Args.

(** NanoLogConfig::STAGING_BUFFER_SIZE, runtime/Config.h. *)
Definition STAGING_BUFFER_SIZE := 2 ^ 20.

(** StaticLogInfo, runtime/Log.h:138-176.  The compression function is
    compress<Ts...> for the argument types [si_types] (NanoLogCpp17.h:1021-1027);
    file name and format string are the characters before the NUL. *)
Record site := Site {
  si_severity : Z; si_line : Z; si_file : list Z; si_fmt : list Z;
  si_nibbles : Z; si_params : list Z; si_types : list aty }.

(** Encoder, runtime/Log.h:683-706: the buffer is the memory [e_mem] between
    [e_base] (backing_buffer) and [e_end] (endOfBuffer), [e_wp] is writePos,
    [e_ext] currentExtentSize.  [e_hi] is not in the code: no byte from [e_hi]
    on has been written.  The counters of dictionary misses, which only decide
    about error messages, and lastBufferIdEncoded, which nothing reads, are left
    out. *)
Record enc := Enc {
  e_mem : mem; e_base : Z; e_wp : Z; e_end : Z; e_ext : option Z; e_hi : Z }.

(** endOfBuffer - writePos. *)
Definition e_space (e : enc) : Z := e_end e - e_wp e.

(** insertCheckpoint, Log.cc:46-79, with writeDictionary = false (as C++17
    NanoLog calls it).  The time stamp, the unix time and the bytes of the double
    cyclesPerSecond are inputs.  Checkpoint, runtime/Log.h:349-383, is packed:
    entryType:2 in byte 0, rdtsc at 1, unixTime at 9, cyclesPerSecond at 17,
    newMetadataBytes at 25, totalMetadataEntries at 29. *)
Definition insertCheckpoint (e : enc) (rdtsc unixTime : Z) (cps : list Z) : option enc :=
  if e_space e <? 33 then None
  else
    let p := e_wp e in
    let m1 := bf_store (e_mem e) p 0 2 ET_CHECKPOINT in
    let m2 := store m1 (p + 1) (le_bytes 8 rdtsc) in
    let m3 := store m2 (p + 9) (le_bytes 8 unixTime) in
    let m4 := store m3 (p + 17) cps in
    let m5 := store m4 (p + 25) (le_bytes 4 0) in
    let m6 := store m5 (p + 29) (le_bytes 4 0) in
    Some (Enc m6 (e_base e) (p + 33) (e_end e) (e_ext e) (Z.max (e_hi e) (p + 33))).

(** Encoder::Encoder, Log.cc:94-126, with forceDictionaryOutput = false; with
    skipCheckpoint = false the constructor exits the program if the checkpoint
    does not fit. *)
Definition encoder (m : mem) (buffer size : Z) (skipCheckpoint : bool) (rdtsc unixTime : Z) (cps : list Z)
    : option enc :=
  let e := Enc m buffer buffer (buffer + size) None buffer in
  if skipCheckpoint then Some e else insertCheckpoint e rdtsc unixTime cps.

(** One entry of a dictionary fragment, Log.cc:170-178; CompressedLogInfo,
    runtime/Log.h:262-284, is packed: severity (1 byte), linenum (4),
    filenameLength (2), formatStringLength (2). *)
Definition putDictionaryEntry (m : mem) (p : Z) (s : site) : mem :=
  let fl := zlen (si_file s) + 1 in
  let sl := zlen (si_fmt s) + 1 in
  let m1 := store m p (le_bytes 1 (si_severity s)) in
  let m2 := store m1 (p + 1) (le_bytes 4 (si_line s)) in
  let m3 := store m2 (p + 5) (le_bytes 2 (to_u 16 fl)) in
  let m4 := store m3 (p + 7) (le_bytes 2 (to_u 16 sl)) in
  let m5 := store m4 (p + 9) (si_file s ++ [0]) in
  store m5 (p + 9 + fl) (si_fmt s ++ [0]).

(** The loop of encodeNewDictionaryEntries, Log.cc:153-179, over the entries
    not yet persisted: memory, writePos, number of entries written. *)
Fixpoint dictionary_loop (m : mem) (p end_ : Z) (ss : list site) : mem * Z * Z :=
  match ss with
  | [] => (m, p, 0)
  | s :: r =>
      let size := 9 + (zlen (si_file s) + 1) + (zlen (si_fmt s) + 1) in
      if to_u 32 (end_ - p) <=? size then (m, p, 0)
      else let '(m', p', k) := dictionary_loop (putDictionaryEntry m p s) (p + size) end_ r in
           (m', p', 1 + k)
  end.

(** encodeNewDictionaryEntries, Log.cc:140-184: the encoder, currentPosition and
    the return value.  DictionaryFragment, runtime/Log.h:286-316: a 32-bit word
    with entryType:2 and newMetadataBytes:30, then totalMetadataEntries. *)
Definition encodeNewDictionaryEntries (e : enc) (currentPosition : Z) (allMetadata : list site) : enc * Z * Z :=
  let p := e_wp e in
  if to_u 32 (e_space e) <=? 8 then (e, currentPosition, 0)
  else
    let m1 := bf_store (e_mem e) p 0 2 ET_LOG_MSGS_OR_DIC in
    let '(m2, q, k) := dictionary_loop m1 (p + 8) (e_end e) (skipn (Z.to_nat currentPosition) allMetadata) in
    let newMetadataBytes := (q - p) mod 2 ^ 30 in
    let word := le_val (load m2 p 4) mod 4 + 4 * newMetadataBytes in
    let m3 := store m2 p (le_bytes 4 word) in
    let m4 := store m3 (p + 4) (le_bytes 4 (to_u 32 (currentPosition + k))) in
    (Enc m4 (e_base e) q (e_end e) (e_ext e) (Z.max (e_hi e) q), currentPosition + k, newMetadataBytes).

(** encodeBufferExtentStart, Log.cc:419-448; [None] is the return value false.
    BufferExtent, runtime/Log.h:318-347, is packed: one byte with entryType:2,
    wrapAround:1, isShort:1, threadIdOrPackNibble:4, then length (4 bytes). *)
Definition encodeBufferExtentStart (e : enc) (bufferId : Z) (newPass : bool) : option enc :=
  let p := e_wp e in
  if e_space e <? 9 then None
  else
    let m1 := bf_store (e_mem e) p 0 2 ET_BUFFER_EXTENT in
    let m2 := bf_store m1 p 2 1 (if newPass then 1 else 0) in
    let '(m4, q, hi) :=
      if bufferId <? 16 then
        let m3 := bf_store m2 p 3 1 1 in
        (bf_store m3 p 4 4 (Z.land 15 bufferId), p + 5, p + 5)
      else
        let m3 := bf_store m2 p 3 1 0 in
        let r := pack m3 (p + 5) (PUns 4 bufferId) in
        (bf_store (pk_mem r) p 4 4 (Z.land 15 (pk_code r)), pk_pos r, pk_touched r) in
    let m5 := store m4 (p + 1) (le_bytes 4 (to_u 32 (q - p))) in
    Some (Enc m5 (e_base e) q (e_end e) (Some (p + 1)) (Z.max (e_hi e) hi)).

(** UncompressedEntry, runtime/Log.h:181-196. *)
Definition ue_fmtId (m : mem) (p : Z) : Z := le_val (load m p 4).
Definition ue_entrySize (m : mem) (p : Z) : Z := le_val (load m (p + 4) 4).
Definition ue_timestamp (m : mem) (p : Z) : Z := le_val (load m (p + 8) 8).

(** The loop of encodeLogMsgs, Log.cc:319-389 (and 224-258 in the preprocessor
    version, whose [known] is always true): [min] is the staging buffer, [from]
    and [remaining] the variables of the code, [cf id] the compression function.
    Result: the encoder, remaining, the number of messages.  An entrySize of 0
    would make the code spin until the buffer is full; here [fuel] ends it. *)
Fixpoint encode_loop (known : Z -> bool) (cf : Z -> mem -> Z -> mem -> Z -> cst) (fuel : nat)
    (min : mem) (from remaining last : Z) (e : enc) : enc * Z * Z :=
  match fuel with
  | O => (e, remaining, 0)
  | S f =>
    if remaining <=? 0 then (e, remaining, 0)
    else
      let id := ue_fmtId min from in
      let size := ue_entrySize min from in
      let ts := ue_timestamp min from in
      if negb (known id) then (e, remaining, 0)
      else if (remaining <? size) && (size <? STAGING_BUFFER_SIZE / 2) then (e, remaining, 0)
      else if e_space e <? to_u 32 (to_u 32 (2 * size) + 16) then (e, remaining, 0)
      else
        let h := compressLogHeader (e_mem e) (e_wp e) id ts last in
        let c := cf id min (from + 16) (lh_mem h) (lh_pos h) in
        let e' := Enc (cs_mem c) (e_base e) (cs_out c) (e_end e) (e_ext e)
                      (Z.max (Z.max (e_hi e) (lh_touched h)) (Z.max (cs_hi c) (cs_out c))) in
        let '(e'', rem, k) := encode_loop known cf f min (from + size) (remaining - size) ts e' in
        (e'', rem, 1 + k)
  end.

(** encodeLogMsgs around the loop, Log.cc:311-318 and 391-402 (217-223 and
    260-271): the encoder, the bytes read, the number of messages. *)
Definition encode_with (known : Z -> bool) (cf : Z -> mem -> Z -> mem -> Z -> cst)
    (e : enc) (min : mem) (from nbytes bufferId : Z) (newPass : bool) : enc * Z * Z :=
  match encodeBufferExtentStart e bufferId newPass with
  | None => (e, 0, 0)
  | Some e1 =>
    let '(e2, rem, k) := encode_loop known cf (Z.to_nat nbytes) min from nbytes 0 e1 in
    let x := match e_ext e2 with Some x => x | None => 0 end in
    let currentSize := to_u 32 (le_val (load (e_mem e2) x 4) + to_u 32 (e_wp e2 - e_wp e1)) in
    (Enc (store (e_mem e2) x (le_bytes 4 currentSize)) (e_base e2) (e_wp e2) (e_end e2) (e_ext e2) (e_hi e2),
     nbytes - rem, k)
  end.

(** info.compressionFunction(info.numNibbles, info.paramTypes, ...). *)
Definition site_compress (dictionary : list site) (id : Z) (min : mem) (input : Z) (mout : mem) (output : Z) : cst :=
  match nth_error dictionary (Z.to_nat id) with
  | Some s => compress (si_types s) (si_nibbles s) (si_params s) min input mout output
  | None => Cst 0 input output mout output
  end.

Definition encodeLogMsgs (e : enc) (min : mem) (from nbytes bufferId : Z) (newPass : bool)
    (dictionary : list site) : enc * Z * Z :=
  encode_with (fun id => id <? zlen dictionary) (site_compress dictionary)
    e min from nbytes bufferId newPass.

(** getEncodedBytes, Log.cc:456-458. *)
Definition getEncodedBytes (e : enc) : Z := e_wp e - e_base e.

(** swapBuffer, Log.cc:473-495: the encoder over the new buffer, and
    outBuffer, outLength, outSize. *)
Definition swapBuffer (e : enc) (inBuffer inSize : Z) : enc * (Z * Z * Z) :=
  (Enc (e_mem e) inBuffer inBuffer (inBuffer + inSize) None inBuffer,
   (e_base e, e_wp e - e_base e, e_end e - e_base e)).
