(** The log file format, written down from its description in
    runtime/Log.h:200-430 as a grammar of byte strings, independently of the
    functions that produce and consume it. *)
From Verif Require Import Base Packer PackerProofs LogHeaderProofs Args ArgsProofs Encoder.

(** A byte string as a memory object. *)
Definition bmem (l : list Z) : mem := fun i => nth (Z.to_nat i) l 0.

(** The compressed arguments of a message: a nibble for each value, the values,
    then the strings.  With an odd number of values the last half byte is not
    determined. *)
Definition is_body (xs : list pval) (ss body : list Z) : Prop :=
  zlen body = (zlen xs + 1) / 2 + zlen (pvalues xs) + zlen ss /\
  Forall is_byte body /\
  block_at (bmem body) 0 xs /\
  skipn (Z.to_nat ((zlen xs + 1) / 2 + zlen (pvalues xs))) body = ss.

(** A compressed message; the time stamp is written relative to the previous
    message of the extent. *)
Record wmsg := WMsg { w_id : Z; w_ts : Z; w_body : list Z }.

Definition wmsg_bytes (last : Z) (w : wmsg) : list Z := hbytes (w_id w) (w_ts w) last ++ w_body w.

Fixpoint wmsgs_bytes (last : Z) (ws : list wmsg) : list Z :=
  match ws with
  | [] => []
  | w :: r => wmsg_bytes last w ++ wmsgs_bytes (w_ts w) r
  end.

(** A buffer extent. *)
Definition tid_bytes (tid : Z) : list Z := if tid <? 16 then [] else ubytes tid.

Definition extent_bytes (tid : Z) (newPass : bool) (ws : list wmsg) : list Z :=
  [2 + 4 * (if newPass then 1 else 0) + (if tid <? 16 then 8 + 16 * tid else 16 * num_bytes tid)]
  ++ le_bytes 4 (5 + zlen (tid_bytes tid) + zlen (wmsgs_bytes 0 ws))
  ++ tid_bytes tid ++ wmsgs_bytes 0 ws.

(** A dictionary fragment; [total] counts the entries written so far. *)
Definition dict_entry (s : site) : list Z :=
  le_bytes 1 (si_severity s) ++ le_bytes 4 (si_line s)
  ++ le_bytes 2 (zlen (si_file s) + 1) ++ le_bytes 2 (zlen (si_fmt s) + 1)
  ++ (si_file s ++ [0]) ++ (si_fmt s ++ [0]).

Definition dict_bytes (total : Z) (ss : list site) : list Z :=
  let b := concat (map dict_entry ss) in
  le_bytes 4 (1 + 4 * (8 + zlen b)) ++ le_bytes 4 total ++ b.

(** A checkpoint; six bits of its first byte, [junk], mean nothing. *)
Definition checkpoint_bytes (junk rdtsc unixTime : Z) (cps : list Z) : list Z :=
  [3 + 4 * junk] ++ le_bytes 8 rdtsc ++ le_bytes 8 unixTime ++ cps ++ le_bytes 4 0 ++ le_bytes 4 0.

(** A message in a staging buffer: the statement's id, the time stamp, the
    arguments, and how many bytes of each string are recorded. *)
Record smsg := SMsg { sm_id : Z; sm_ts : Z; sm_args : list arg; sm_ns : list Z }.

Definition staged_bytes (s : site) (x : smsg) : list Z :=
  let a := imgs (si_params s) (sm_ns x) (sm_args x) in
  le_bytes 4 (sm_id x) ++ le_bytes 4 (16 + zlen a) ++ le_bytes 8 (sm_ts x) ++ a.

(** The message was recorded by statement [s]. *)
Definition staged_ok (s : site) (x : smsg) : Prop :=
  0 <= sm_id x < 2 ^ 32 /\ 0 <= sm_ts x < 2 ^ 64 /\
  map aty_of (sm_args x) = si_types s /\ Forall wf_arg (sm_args x) /\
  sizes_ok (si_params s) (sm_ns x) (sm_args x) /\ strings_ok (si_params s) (sm_args x) /\
  si_nibbles s = zlen (pvals (si_params s) (sm_args x)) /\
  2 * zlen (staged_bytes s x) + 16 < 2 ^ 32.

(** The compressed form of a staged message. *)
Definition compressed (s : site) (x : smsg) (w : wmsg) : Prop :=
  w_id w = sm_id x /\ w_ts w = sm_ts x /\
  is_body (pvals (si_params s) (sm_args x)) (strs (si_params s) (sm_ns x) (sm_args x)) (w_body w).
