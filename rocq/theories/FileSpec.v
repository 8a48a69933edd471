(** What a log file is and what it says: a specification, independent of the
    encoder and the decoder. *)
From Verif Require Import Base Packer Chars Fmt FmtProofs FrontFmt Prop_FrontFmt Prop_MicroCode Args Printf ArgsProofs Prop_Args
  Prop_Message Encoder Wire Decoder.

(** A message in a file: its compressed form, the statement, and the text printf
    would have produced when it was logged. *)
Record fmsg := FMsg { fm_w : wmsg; fm_site : site; fm_text : list Z }.

Inductive item :=
| IPad (bs : list Z)
| IDict (total : Z) (ss : list site)
| IExtent (tid : Z) (newPass : bool) (ms : list fmsg)
| ICheckpoint (junk : Z) (cp : checkpoint).

Definition item_bytes (it : item) : list Z :=
  match it with
  | IPad bs => bs
  | IDict total ss => dict_bytes total ss
  | IExtent tid np ms => extent_bytes tid np (map fm_w ms)
  | ICheckpoint junk cp => checkpoint_bytes junk (cp_rdtsc cp) (cp_unixTime cp) (cp_cps cp)
  end.

Definition file_bytes (items : list item) : list Z := concat (map item_bytes items).

(** What is shown of the messages of a file, in file order.  [cp] is the
    checkpoint in force. *)
Record shown := Shown {
  sh_cp : checkpoint; sh_id : Z; sh_ts : Z; sh_tid : Z; sh_file : list Z; sh_line : Z; sh_level : Z; sh_text : list Z
}.

Inductive oline := LMsg (s : shown) | LNewExecution.

Definition show (cp : checkpoint) (tid : Z) (f : fmsg) : oline :=
  LMsg (Shown cp (w_id (fm_w f)) (w_ts (fm_w f)) tid (si_file (fm_site f)) (si_line (fm_site f)) (si_severity (fm_site f)) (fm_text f)).

Fixpoint file_lines (cp : checkpoint) (items : list item) : list oline :=
  match items with
  | [] => []
  | IExtent tid _ ms :: r => map (show cp tid) ms ++ file_lines cp r
  | ICheckpoint _ cp' :: r => LNewExecution :: file_lines cp' r
  | _ :: r => file_lines cp r
  end.

(** The body [w] was compressed from arguments for which printf produces [text]. *)
Definition written (conv : rconv -> list Z) (s : site) (w : wmsg) (text : list Z) : Prop :=
  exists ps args, si_fmt s = render ps /\ defined conv ps args text /\ backend_ok ps /\
    Forall2 harmless (params ps) args /\
    is_body (pvals (map report (params ps)) args) (strings_image (params ps) None args) (w_body w).

Definition nonzero_byte (c : Z) : Prop := 0 < c < 256.

Definition site_ok (s : site) : Prop :=
  0 <= si_severity s < 256 /\ 0 <= si_line s < 2 ^ 32 /\
  Forall nonzero_byte (si_file s) /\ Forall nonzero_byte (si_fmt s) /\
  zlen (si_file s) + 1 < 2 ^ 16 /\ zlen (si_fmt s) + 1 < 2 ^ 16.

(** A message given the statements known so far. *)
Definition fmsg_ok (conv : rconv -> list Z) (known : list site) (f : fmsg) : Prop :=
  0 <= w_id (fm_w f) < 2 ^ 32 /\ 0 <= w_ts (fm_w f) < 2 ^ 64 /\
  nth_error known (Z.to_nat (w_id (fm_w f))) = Some (fm_site f) /\
  written conv (fm_site f) (fm_w f) (fm_text f).

(** The largest extent the encoder may produce (C15), whatever a decoder accepts. *)
Definition EXTENT_MAX := 2 ^ 20 + 9.

Definition item_ok (conv : rconv -> list Z) (known : list site) (it : item) : Prop :=
  match it with
  | IPad bs => Forall (fun b => is_byte b /\ b mod 4 = 0) bs
  | IDict total ss => 0 <= total < 2 ^ 32 /\ Forall site_ok ss /\ zlen (dict_bytes total ss) < 2 ^ 30
  | IExtent tid np ms =>
      0 <= tid < 2 ^ 32 /\ zlen (item_bytes it) <= EXTENT_MAX /\ Forall (fmsg_ok conv known) ms
  | ICheckpoint junk cp =>
      0 <= junk < 64 /\ 0 <= cp_rdtsc cp < 2 ^ 64 /\ 0 <= cp_unixTime cp < 2 ^ 64 /\
      length (cp_cps cp) = 8%nat /\ Forall is_byte (cp_cps cp)
  end.

Definition knows (known : list site) (it : item) : list site :=
  match it with
  | IDict _ ss => known ++ ss
  | ICheckpoint _ _ => []
  | _ => known
  end.

Fixpoint items_ok (conv : rconv -> list Z) (known : list site) (items : list item) : Prop :=
  match items with
  | [] => True
  | it :: r => item_ok conv known it /\ items_ok conv (knows known it) r
  end.

(** A log file starts with a checkpoint. *)
Definition file_ok (conv : rconv -> list Z) (items : list item) : Prop :=
  match items with
  | ICheckpoint _ _ :: _ => items_ok conv [] items
  | _ => False
  end.

Definition lines_of (items : list item) : list oline :=
  match items with
  | ICheckpoint _ cp :: r => file_lines cp r
  | _ => []
  end.

(** What the model's output shows. *)
Definition line_of (e : event) : oline :=
  match e with
  | EvMsg cp m => LMsg (Shown cp (dm_id m) (dm_ts m) (dm_tid m) (dm_file m) (dm_line m) (dm_level m) (dm_text m))
  | EvNewExecution => LNewExecution
  end.

Definition messages (ls : list oline) : list shown :=
  concat (map (fun l => match l with LMsg s => [s] | LNewExecution => [] end) ls).

(** ** Truncated files *)
Definition is_pad (it : item) : bool := match it with IPad _ => true | _ => false end.

Definition knows_all (known : list site) (items : list item) : list site := fold_left knows items known.

(** The part of an item that reached the file before a crash; nothing, or some
    of the bytes of something other than padding. *)
Definition torn (conv : rconv -> list Z) (known : list site) (tail : list Z) : Prop :=
  tail = [] \/
  exists it k, item_ok conv known it /\ is_pad it = false /\ (0 < k < length (item_bytes it))%nat /\
    tail = firstn k (item_bytes it).

(** The items that are complete in the first [k] bytes. *)
Fixpoint whole (k : nat) (items : list item) : list item :=
  match items with
  | [] => []
  | it :: r => if (length (item_bytes it) <=? k)%nat then it :: whole (k - length (item_bytes it)) r else []
  end.
