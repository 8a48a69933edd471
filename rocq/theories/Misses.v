(** The encoder's counters of statements it does not know yet, and what it
    complains about on standard error. *)
From Verif Require Import Base Packer LogHeader Chars Fmt Args Encoder.

(** lastBufferIdEncoded, encodeMissDueToMetadata and
    consecutiveEncodeMissesDueToMetadata, runtime/Log.h:693-706, all uint32_t. *)
Record mstats := MStats { mi_last : Z; mi_miss : Z; mi_run : Z }.

(** Encoder::Encoder, Log.cc:101-104. *)
Definition new_mstats : mstats := MStats (to_u 32 (-1)) 0 0.

(** The error messages of Log.cc:332-338 and 355-361, with the numbers printed. *)
Inductive complaint := Missing (fmtId : Z) | TooLong (fmtId entrySize : Z).

(** The loop of encodeLogMsgs, Log.cc:319-389, as [encode_loop] but with the
    counters and the complaints. *)
Fixpoint miss_loop (known : Z -> bool) (cf : Z -> mem -> Z -> mem -> Z -> cst) (fuel : nat)
    (min : mem) (from remaining last : Z) (e : enc) (s : mstats) : enc * Z * Z * mstats * list complaint :=
  match fuel with
  | O => (e, remaining, 0, s, [])
  | S f =>
    if remaining <=? 0 then (e, remaining, 0, s, [])
    else
      let id := ue_fmtId min from in
      let size := ue_entrySize min from in
      let ts := ue_timestamp min from in
      if negb (known id) then
        let run := to_u 32 (mi_run s + 1) in
        (e, remaining, 0, MStats (mi_last s) (to_u 32 (mi_miss s + 1)) run, if run mod 1000 =? 0 then [Missing id] else [])
      else
        let s1 := MStats (mi_last s) (mi_miss s) 0 in
        if (remaining <? size) && (size <? STAGING_BUFFER_SIZE / 2) then (e, remaining, 0, s1, [])
        else
          let long := if remaining <? size then [TooLong id size] else [] in
          if e_space e <? to_u 32 (to_u 32 (2 * size) + 16) then (e, remaining, 0, s1, long)
          else
            let h := compressLogHeader (e_mem e) (e_wp e) id ts last in
            let c := cf id min (from + 16) (lh_mem h) (lh_pos h) in
            let e' := Enc (cs_mem c) (e_base e) (cs_out c) (e_end e) (e_ext e)
                          (Z.max (Z.max (e_hi e) (lh_touched h)) (Z.max (cs_hi c) (cs_out c))) in
            let '(e'', rem, k, s2, cs) := miss_loop known cf f min (from + size) (remaining - size) ts e' s1 in
            (e'', rem, 1 + k, s2, long ++ cs)
  end.

(** encodeLogMsgs, Log.cc:305-402, with encodeBufferExtentStart's assignment of
    lastBufferIdEncoded, Log.cc:445: the encoder, the bytes read, the number of
    messages, the counters, the complaints. *)
Definition encode_noting (e : enc) (s : mstats) (min : mem) (from nbytes bufferId : Z) (newPass : bool) (dictionary : list site)
    : enc * Z * Z * mstats * list complaint :=
  match encodeBufferExtentStart e bufferId newPass with
  | None => (e, 0, 0, s, [])
  | Some e1 =>
    let '(e2, rem, k, s2, cs) := miss_loop (fun id => id <? zlen dictionary) (site_compress dictionary) (Z.to_nat nbytes) min from nbytes 0 e1
      (MStats bufferId (mi_miss s) (mi_run s)) in
    let x := match e_ext e2 with Some x => x | None => 0 end in
    let currentSize := to_u 32 (le_val (load (e_mem e2) x 4) + to_u 32 (e_wp e2 - e_wp e1)) in
    (Enc (store (e_mem e2) x (le_bytes 4 currentSize)) (e_base e2) (e_wp e2) (e_end e2) (e_ext e2) (e_hi e2),
     nbytes - rem, k, s2, cs)
  end.

(** swapBuffer, Log.cc:484, for the counters. *)
Definition swap_noting (s : mstats) : mstats := MStats (to_u 32 (-1)) (mi_miss s) (mi_run s).

(** What is done with an encoder. *)
Inductive eop :=
| EEncode (min : mem) (from nbytes bufferId : Z) (newPass : bool) (dictionary : list site)
| ESwap (inBuffer inSize : Z).

Definition eop_step (x : enc * mstats) (o : eop) : enc * mstats * list complaint :=
  let '(e, s) := x in
  match o with
  | EEncode min from nbytes id np dict => let '(e', _, _, s', cs) := encode_noting e s min from nbytes id np dict in (e', s', cs)
  | ESwap b n => (fst (swapBuffer e b n), swap_noting s, [])
  end.

Fixpoint eops_run (x : enc * mstats) (os : list eop) : enc * mstats * list complaint :=
  match os with
  | [] => (x, [])
  | o :: r => let '(x1, cs1) := eop_step x o in let '(x2, cs2) := eops_run x1 r in (x2, cs1 ++ cs2)
  end.
