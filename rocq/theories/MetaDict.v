(** Model of readDictionary for checkpoints that carry a dictionary, as the
    preprocessor version writes them: runtime/Log.cc:646-707, and of what the
    decompressor reads through a metadata pointer, Log.cc:1398-1448.

    rawMetadata is a memory object of [lim] bytes starting at offset 0; in the
    program [lim] is 1 GB (Log.cc:619).  Pointers into it are offsets. *)
From Verif Require Import Base Packer LogHeader Chars Fmt MicroCode Args Printf Decode Encoder Decoder.

(** FormatType by number, Log.h:439-466. *)
Definition ftypes : list ftype :=
  [NONE; unsigned_char_t; unsigned_short_int_t; unsigned_int_t; unsigned_long_int_t; unsigned_long_long_int_t;
   uintmax_t_t; size_t_t; wint_t_t; signed_char_t; short_int_t; int_t; long_int_t; long_long_int_t; intmax_t_t;
   ptrdiff_t_t; double_t; long_double_t; const_void_ptr_t; const_char_ptr_t; const_wchar_t_ptr_t].

(** rawMetadata, endOfRawMetadata, fmtId2metadata and fmtId2fmtString. *)
Record metas := Metas { ms_mem : mem; ms_end : Z; ms_at : list Z; ms_fmts : list (list Z) }.

(** The inner loop, Log.cc:680-686; PrintFragment, Log.h:411-430, has its length
    in bytes 1 and 2.  [None]: the text runs out of rawMetadata. *)
Fixpoint skip_frags (n : nat) (lim newEnd : Z) (m : mem) (pos : Z) (fmt : list Z) : option (Z * list Z) :=
  match n with
  | O => Some (pos, fmt)
  | S k =>
    if newEnd <? pos then Some (pos, fmt)
    else match mstr (Z.to_nat (lim - (pos + 3))) m (pos + 3) with
         | None => None
         | Some s => skip_frags k lim newEnd m (pos + 3 + le_val (load m (pos + 1) 2)) (fmt ++ s)
         end
  end.

(** The loop over the entries, Log.cc:671-689; FormatMetadata, Log.h:385-405:
    numNibbles, numPrintFragments, logLevel, lineNumber, filenameLength. *)
Fixpoint index_loop (fuel : nat) (lim newEnd : Z) (st : metas) : option metas :=
  match fuel with
  | O => None
  | S n =>
    let m := ms_mem st in
    let p := ms_end st in
    if p <? newEnd then
      match skip_frags (Z.to_nat (m (p + 1))) lim newEnd m (p + 9 + le_val (load m (p + 7) 2)) [] with
      | None => None
      | Some (pos, fmt) => index_loop n lim newEnd (Metas m pos (ms_at st ++ [p]) (ms_fmts st ++ [fmt]))
      end
    else Some st
  end.

(** readDictionary, Log.cc:646-707.  [None]: a failed assertion or a read or
    write outside rawMetadata. *)
Definition read_dictionary (lim : Z) (flush : bool) (cp : checkpoint) (st : metas) (f : file)
    : option (file * checkpoint * metas * bool) :=
  let '(b, f1) := fread 33 f in
  if zlen b <? 33 then Some (f1, cp, st, false)
  else if negb (entryType (nth 0 b 0) =? ET_CHECKPOINT) then None
  else
    let cp' := Checkpoint (le_val (slice 1 8 b)) (le_val (slice 9 8 b)) (slice 17 8 b) in
    let newMetadataBytes := le_val (slice 25 4 b) in
    let totalMetadataEntries := le_val (slice 29 4 b) in
    let '(meta, f2) := fread newMetadataBytes f1 in                            (* 654-659 *)
    if lim <? ms_end st + zlen meta then None
    else
      let m := store (ms_mem st) (ms_end st) meta in
      if negb (zlen meta =? newMetadataBytes) then Some (f2, cp', Metas m (ms_end st) (ms_at st) (ms_fmts st), false)
      else
        let st1 := if flush then Metas m 0 [] [] else Metas m (ms_end st) (ms_at st) (ms_fmts st) in  (* 661-665 *)
        let newEnd := ms_end st1 + zlen meta in
        match index_loop (S (length meta)) lim newEnd st1 with
        | None => None
        | Some st2 => Some (f2, cp', st2, (ms_end st2 =? newEnd) && (zlen (ms_at st2) =? totalMetadataEntries))
        end.

(** What is read through a metadata pointer: the fields (Log.cc:1398-1421) and
    the fragments (Log.cc:1423-1448 and 1650).  [None]: an argument type that the
    switch does not know, or a text that runs out of rawMetadata. *)
Fixpoint frags_at (n : nat) (lim : Z) (m : mem) (pos : Z) : option (list frag) :=
  match n with
  | O => Some []
  | S k =>
    match nth_error ftypes (Z.to_nat (bf_get (m pos) 0 5)), mstr (Z.to_nat (lim - (pos + 3))) m (pos + 3),
          frags_at k lim m (pos + 3 + le_val (load m (pos + 1) 2)) with
    | Some ty, Some s, Some r =>
        Some (Frag ty (negb (bf_get (m pos) 5 1 =? 0)) (negb (bf_get (m pos) 6 1 =? 0)) s :: r)
    | _, _, _ => None
    end
  end.

Definition microcode_at (lim : Z) (m : mem) (p : Z) : option microcode :=
  match mstr (Z.to_nat (lim - (p + 9))) m (p + 9),
        frags_at (Z.to_nat (m (p + 1))) lim m (p + 9 + le_val (load m (p + 7) 2)) with
  | Some filename, Some fs => Some (MicroCode (m p) (m (p + 1)) (m (p + 2)) (le_val (load m (p + 3) 4)) filename fs)
  | _, _ => None
  end.
