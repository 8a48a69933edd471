(** The decompressor with its dictionary as it lies in memory: the functions of
    Decoder.v and Ordered.v, runtime/Log.cc:1085-1105, 1315-1680, 1724-1783,
    1799-1967 and 1987-2075, with rawMetadata, fmtId2metadata and fmtId2fmtString
    (MetaDict.v, MicroMem.v) in place of a list of micro codes.  Checkpoints may
    carry a dictionary.

    [lim] is the size of rawMetadata, 2^30 in the program (Log.cc:619-620). *)
From Verif Require Import Base Packer LogHeader Chars Fmt MicroCode Args Printf Decode Encoder Decoder Ordered MetaDict MicroMem.

(** decompressNextLogStatement, Log.cc:1315-1680 (the body is print_message):
    the fragment and the message, none if there is none.  [None]: the id is not
    in the dictionary (std::vector::at throws), there is no metadata at its
    pointer, or the body is malformed. *)
Definition m_decompressNext (lim : Z) (conv : rconv -> list Z) (st : metas) (b : bfrag) : option (bfrag * option dmsg) :=
  if (bf_end b <? bf_pos b) || negb (bf_more b)
  then Some (BFrag (bf_mem b) (bf_valid b) (bf_tid b) (bf_pos b) (bf_end b) false (bf_id b) (bf_ts b), None)
  else
    match metadata_of lim st (bf_id b) with
    | None => None
    | Some mc =>
      match print_message conv mc (bf_mem b) (bf_pos b) STORAGE with
      | None => None
      | Some (text, pushed, pos) =>
        let dm := DMsg (bf_id b) (bf_ts b) (bf_tid b) (mc_file mc) (mc_line mc) (mc_level mc) text pushed in
        let done := BFrag (bf_mem b) (bf_valid b) (bf_tid b) pos (bf_end b) false (bf_id b) (bf_ts b) in
        if bf_end b <=? pos then Some (done, Some dm)
        else
          match decompressLogHeader (bf_mem b) pos (bf_ts b) with
          | Some (id, ts, pos') => Some (BFrag (bf_mem b) (bf_valid b) (bf_tid b) pos' (bf_end b) true id ts, Some dm)
          | None => Some (done, Some dm)
          end
      end
    end.

(** The decoder, Log.h:946-990, with rawMetadata and the pointers into it.  [md_open]: a file name was stored and inputFd is
    not null. *)
Record mdecoder := MDecoder {
  md_open : bool; md_file : file; md_printed : Z; md_bf : bfrag; md_good : bool;
  md_cp : checkpoint; md_free : list bfrag; md_st : metas
}.

(** Log.cc:602-634; [m] is what malloc leaves in rawMetadata. *)
Definition new_mdecoder (m : mem) : mdecoder :=
  MDecoder false (File [] false) 0 new_bfrag false (Checkpoint 0 0 (repeat 0 8)) [] (Metas m 0 [] []).

(** open, Log.cc:1085-1105: the decoder and the result. *)
Definition md_open_file (lim : Z) (d : mdecoder) (content : list Z) : option (mdecoder * bool) :=
  match read_dictionary lim true (md_cp d) (md_st d) (File content false) with
  | None => None
  | Some (f, cp, st, true) => Some (MDecoder true f 0 (md_bf d) true cp (md_free d) st, true)
  | Some (f, cp, st, false) => Some (MDecoder false f (md_printed d) (md_bf d) false cp (md_free d) st, false)
  end.

(** while (bf->hasNext()) decompressNextLogStatement, Log.cc:1747-1755. *)
Fixpoint m_drain_fragment (lim : Z) (conv : rconv -> list Z) (fuel : nat) (cp : checkpoint) (st : metas) (b : bfrag)
    : option (bfrag * list event) :=
  match fuel with
  | O => None
  | S n =>
    if bf_more b then
      match m_decompressNext lim conv st b with
      | None => None
      | Some (b', o) =>
        match m_drain_fragment lim conv n cp st b' with
        | None => None
        | Some (b'', evs) => Some (b'', match o with Some dm => EvMsg cp dm :: evs | None => evs end)
        end
      end
    else Some (b, [])
  end.

(** The loop of internalDecompressUnordered, Log.cc:1734-1775, with the fragment
    it uses.  An iteration consumes at least a byte or meets the end of the
    file. *)
Fixpoint m_unordered_loop (lim : Z) (conv : rconv -> list Z) (fuel : nat) (d : mdecoder) (b : bfrag)
    : option (mdecoder * bfrag * list event) :=
  match fuel with
  | O => None
  | S n =>
    if f_eof (md_file d) || negb (md_good d) then Some (d, b, [])
    else
      let '(entry, f) := peekEntryType (md_file d) in
      let with_ f' printed good cp st := MDecoder (md_open d) f' printed (md_bf d) good cp (md_free d) st in
      if entry =? ET_BUFFER_EXTENT then
        match readBufferExtent f b with
        | None => None
        | Some (f', b', ok, _) =>
          if ok then
            match m_drain_fragment lim conv (S (S (Z.to_nat (bf_end b' - bf_pos b')))) (md_cp d) (md_st d) b' with
            | None => None
            | Some (b'', evs) =>
              match m_unordered_loop lim conv n (with_ f' (md_printed d + msgs_in evs) (md_good d) (md_cp d) (md_st d)) b'' with
              | None => None
              | Some (d', b3, evs') => Some (d', b3, evs ++ evs')
              end
            end
          else m_unordered_loop lim conv n (with_ f' (md_printed d) (md_good d) (md_cp d) (md_st d)) b'
        end
      else if entry =? ET_CHECKPOINT then
        match read_dictionary lim true (md_cp d) (md_st d) f with
        | None => None
        | Some (f', cp, st, ok) =>
          match m_unordered_loop lim conv n (with_ f' (md_printed d) ok cp st) b with
          | None => None
          | Some (d', b', evs) => Some (d', b', if ok then EvNewExecution :: evs else evs)
          end
        end
      else if entry =? ET_LOG_MSGS_OR_DIC then
        match read_fragment lim f (md_st d) with
        | None => None
        | Some (f', st, ok) => m_unordered_loop lim conv n (with_ f' (md_printed d) ok (md_cp d) st) b
        end
      else m_unordered_loop lim conv n (with_ (skip_padding (S (length (f_rest f))) f) (md_printed d) (md_good d) (md_cp d) (md_st d)) b
  end.

(** decompressUnordered, Log.cc:2071-2075 and 1724-1783: the decoder, what is
    written, the result. *)
Definition m_decompressUnordered (lim : Z) (conv : rconv -> list Z) (d : mdecoder) : option (mdecoder * list event * Z) :=
  if negb (md_open d) then Some (d, [], -1)
  else
    let '(b, free) := allocateBufferFragment (md_free d) in
    let d1 := MDecoder (md_open d) (md_file d) (md_printed d) (md_bf d) (md_good d) (md_cp d) free (md_st d) in
    match m_unordered_loop lim conv (S (S (length (f_rest (md_file d))))) d1 b with
    | None => None
    | Some (d2, b', evs) =>
      Some (MDecoder (md_open d2) (md_file d2) (md_printed d2) (md_bf d2) (md_good d2) (md_cp d2)
              (freeBufferFragment b' (md_free d2)) (md_st d2),
            evs, if md_good d2 then md_printed d2 else -1)
    end.

(** The search of getNextLogStatement for the next extent with messages,
    Log.cc:2008-2047; true: the function returned false inside the loop. *)
Fixpoint m_next_extent (lim : Z) (fuel : nat) (d : mdecoder) : option (mdecoder * list event * bool) :=
  match fuel with
  | O => None
  | S n =>
    if bf_more (md_bf d) || f_eof (md_file d) || negb (md_good d) then Some (d, [], false)
    else
      let '(entry, f) := peekEntryType (md_file d) in
      let with_ f' bf good cp st := MDecoder (md_open d) f' (md_printed d) bf good cp (md_free d) st in
      if entry =? ET_BUFFER_EXTENT then
        match readBufferExtent f (md_bf d) with
        | None => None
        | Some (f', b', ok, _) =>
          if ok then m_next_extent lim n (with_ f' b' (md_good d) (md_cp d) (md_st d))
          else Some (with_ f' b' false (md_cp d) (md_st d), [], true)
        end
      else if entry =? ET_CHECKPOINT then
        match read_dictionary lim true (md_cp d) (md_st d) f with
        | None => None
        | Some (f', cp, st, ok) =>
          if ok then
            match m_next_extent lim n (with_ f' (md_bf d) (md_good d) cp st) with
            | None => None
            | Some (d', evs, r) => Some (d', EvNewExecution :: evs, r)
            end
          else Some (with_ f' (md_bf d) false cp st, [], true)
        end
      else if entry =? ET_LOG_MSGS_OR_DIC then
        match read_fragment lim f (md_st d) with
        | None => None
        | Some (f', st, ok) => m_next_extent lim n (with_ f' (md_bf d) ok (md_cp d) st)
        end
      else m_next_extent lim n (with_ (skip_padding (S (length (f_rest f))) f) (md_bf d) (md_good d) (md_cp d) (md_st d))
  end.

Definition m_next_from (lim : Z) (conv : rconv -> list Z) (d : mdecoder) : option (mdecoder * list event * bool) :=
  match m_decompressNext lim conv (md_st d) (md_bf d) with
  | None => None
  | Some (b, o) =>
    let d' k := MDecoder (md_open d) (md_file d) (md_printed d + k) b (md_good d) (md_cp d) (md_free d) (md_st d) in
    match o with
    | Some dm => Some (d' 1, [EvMsg (md_cp d) dm], true)
    | None => Some (d' 0, [], false)
    end
  end.

(** getNextLogStatement, Log.cc:1987-2057: the decoder, what is written, the
    result. *)
Definition m_getNextLogStatement (lim : Z) (conv : rconv -> list Z) (d : mdecoder) : option (mdecoder * list event * bool) :=
  if bf_more (md_bf d) then
    match m_next_from lim conv d with
    | None => None
    | Some (d', evs, _) => Some (d', evs, true)
    end
  else if negb (md_open d) || f_eof (md_file d) || negb (md_good d) then Some (d, [], false)
  else
    match m_next_extent lim (S (S (length (f_rest (md_file d))))) d with
    | None => None
    | Some (d1, evs1, true) => Some (d1, evs1, false)
    | Some (d1, evs1, false) =>
      match m_next_from lim conv d1 with
      | None => None
      | Some (d2, evs2, r) => Some (d2, evs1 ++ evs2, r)
      end
    end.

(** One entry of the file, Log.cc:1849-1890: the decoder, the stages, newStage,
    mustDepleteAllStages, what is printed. *)
Definition m_load_entry (lim : Z) (d : mdecoder) (stages : list (list bfrag)) (n : nat)
    : option (mdecoder * list (list bfrag) * bool * bool * list event) :=
  let '(entry, f) := peekEntryType (md_file d) in
  let with_ f' good cp free st := MDecoder (md_open d) f' (md_printed d) (md_bf d) good cp free st in
  if entry =? ET_BUFFER_EXTENT then
    let '(b, free) := allocateBufferFragment (md_free d) in
    match readBufferExtent f b with
    | None => None
    | Some (f', b', ok, wrap) =>
      Some (with_ f' ok (md_cp d) free (md_st d), if ok then push_stage n b' stages else stages, wrap, false, [])
    end
  else if entry =? ET_CHECKPOINT then
    if negb (is_empty (nth 0 stages []))
    then Some (with_ f (md_good d) (md_cp d) (md_free d) (md_st d), stages, false, true, [])
    else
      match read_dictionary lim true (md_cp d) (md_st d) f with
      | None => None
      | Some (f', cp, st, ok) =>
        Some (with_ f' ok cp (md_free d) st, stages, false, false, if ok then [EvNewExecution] else [])
      end
  else if entry =? ET_LOG_MSGS_OR_DIC then
    match read_fragment lim f (md_st d) with
    | None => None
    | Some (f', st, ok) => Some (with_ f' ok (md_cp d) (md_free d) st, stages, false, false, [])
    end
  else
    Some (with_ (skip_padding (S (length (f_rest f))) f) (md_good d) (md_cp d) (md_free d) (md_st d), stages, false, false, []).

(** Step 1, Log.cc:1846-1903: the decoder, the stages, stagesBuffered,
    mustDepleteAllStages, what is printed. *)
Fixpoint m_load_stages (lim : Z) (fuel : nat) (d : mdecoder) (stages : list (list bfrag)) (n : nat)
    : option (mdecoder * list (list bfrag) * nat * bool * list event) :=
  match fuel with
  | O => None
  | S fuel' =>
    if f_eof (md_file d) || negb (md_good d) then Some (d, stages, n, false, [])
    else
      match m_load_entry lim d stages n with
      | None => None
      | Some (d', stages', newStage, must0, evs) =>
        let must := must0 || f_eof (md_file d') in
        let needFlush := must || negb (md_good d') in
        let n' := if newStage || (needFlush && negb (is_empty (nth n stages' []))) then S n else n in
        if must || (n' =? stagesToBuffer)%nat then Some (d', stages', n', must, evs)
        else
          match m_load_stages lim fuel' d' stages' n' with
          | None => None
          | Some (d2, st2, n2, m2, evs2) => Some (d2, st2, n2, m2, evs ++ evs2)
          end
      end
  end.

(** decompressNextLogStatement and hasNext, Log.cc:1933-1949. *)
Definition m_next_message (lim : Z) (conv : rconv -> list Z) (cp : checkpoint) (st : metas) (b : bfrag)
    : option (bfrag * bool * list event) :=
  match m_decompressNext lim conv st b with
  | None => None
  | Some (b', o) => Some (b', bf_more b', match o with Some dm => [EvMsg cp dm] | None => [] end)
  end.

(** The outer loop, Log.cc:1844-1964. *)
Fixpoint m_ordered_loop (lim : Z) (conv : rconv -> list Z) (pick : chooser) (fuel k : nat) (d : mdecoder) (stages : list (list bfrag)) (n : nat)
    : option (mdecoder * list event) :=
  match fuel with
  | O => None
  | S fuel' =>
    if f_eof (md_file d) || negb (md_good d) then Some (d, [])
    else
      match m_load_stages lim (S (S (length (f_rest (md_file d))))) d stages n with
      | None => None
      | Some (d1, st1, n1, must, evs1) =>
        match deplete bf_ts (m_next_message lim conv (md_cp d1) (md_st d1)) pick (deplete_fuel st1) k must st1 n1 [] with
        | None => None
        | Some (k', st2, n2, freed, evs2) =>
          let d2 := MDecoder (md_open d1) (md_file d1) (md_printed d1 + msgs_in evs2) (md_bf d1) (md_good d1) (md_cp d1)
                      (map bf_reset freed ++ md_free d1) (md_st d1) in
          match m_ordered_loop lim conv pick fuel' k' d2 st2 n2 with
          | None => None
          | Some (d3, evs3) => Some (d3, evs1 ++ evs2 ++ evs3)
          end
        end
      end
  end.

(** decompressTo, Log.cc:1799-1967: the decoder, what is printed, the result. *)
Definition m_decompressTo (lim : Z) (conv : rconv -> list Z) (pick : chooser) (d : mdecoder) : option (mdecoder * list event * Z) :=
  if negb (md_open d) then Some (d, [], -1)
  else
    match m_ordered_loop lim conv pick (2 * length (f_rest (md_file d)) + 4) 0 d [[]; []; []] 0 with
    | None => None
    | Some (d', evs) => Some (d', evs, md_printed d')
    end.
