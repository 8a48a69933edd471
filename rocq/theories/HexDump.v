(** Model of runtime/Util.cc: format, vformat and hexDump.  Line numbers are those
    of Util.cc.  Characters are their codes. *)
From Verif Require Import Base Chars.

(** What a C string in an array holds: the characters in front of the first NUL. *)
Fixpoint c_str (l : list Z) : list Z :=
  match l with
  | [] => []
  | c :: r => if c =? 0 then [] else c :: c_str r
  end.

(** vsnprintf(buf, size, ...), size > 0, where the conversions yield [text]: what the array
    holds, and the result. *)
Definition vsnprintf (size : Z) (text : list Z) : list Z * Z := (firstn (Z.to_nat (size - 1)) text ++ [0], zlen text).

(** vformat, lines 46-69.  [None]: the loop has not ended within [fuel] rounds, or the
    int r + 1 overflows. *)
Fixpoint vformat_loop (fuel : nat) (bufSize : Z) (text : list Z) : option (list Z) :=
  match fuel with
  | O => None
  | S f =>
    let '(buf, r) := vsnprintf bufSize text in
    if r <? bufSize then Some (c_str buf)
    else if r + 1 <? 2 ^ 31 then vformat_loop f (r + 1) text else None
  end.
Definition vformat (text : list Z) : option (list Z) := vformat_loop 3 1024 text.

(** printf's "%0nlx" for a value of at most [n] digits. *)
Definition hex_digit (d : Z) : Z := if d <? 10 then 48 + d else 87 + d.
Fixpoint hexn (n : nat) (v : Z) : list Z :=
  match n with
  | O => []
  | S k => hexn k (v / 16) ++ [hex_digit (v mod 16)]
  end.

(** isprint in the locale the program runs in, which is "C" as it sets none. *)
Definition isprint (c : Z) : bool := (32 <=? c) && (c <=? 126).

(** Lines 92-105: hex[j] and ascii[j]. *)
Definition hex_cell (mem : Z -> Z) (bytes i j : Z) : list Z :=
  if bytes <=? i + j then [32; 32] else hexn 2 (mem (i + j)).
Definition ascii_cell (mem : Z -> Z) (bytes i j : Z) : Z :=
  if bytes <=? i + j then 0 else if isprint (mem (i + j)) then mem (i + j) else 46.

Definition columns : list Z := [0; 1; 2; 3; 4; 5; 6; 7; 8; 9; 10; 11; 12; 13; 14; 15].

(** Lines 109-113: the format's "%s"s and what is between them. *)
Definition dump_text (mem : Z -> Z) (bytes i : Z) : list Z :=
  let h := hex_cell mem bytes i in
  hexn 16 i ++ chars "  " ++
  h 0 ++ [32] ++ h 1 ++ [32] ++ h 2 ++ [32] ++ h 3 ++ [32] ++ h 4 ++ [32] ++ h 5 ++ [32] ++ h 6 ++ [32] ++ h 7 ++ chars "  " ++
  h 8 ++ [32] ++ h 9 ++ [32] ++ h 10 ++ [32] ++ h 11 ++ [32] ++ h 12 ++ [32] ++ h 13 ++ [32] ++ h 14 ++ [32] ++ h 15 ++ chars "  |" ++
  c_str (map (ascii_cell mem bytes i) columns ++ [0]) ++ chars "|" ++ [10].

(** hexDump, lines 77-116; i is a uint64_t. *)
Fixpoint dump_loop (fuel : nat) (mem : Z -> Z) (bytes i : Z) : option (list Z) :=
  match fuel with
  | O => None
  | S f =>
    if i <? bytes then
      match vformat (dump_text mem bytes i), dump_loop f mem bytes (to_u 64 (i + 16)) with
      | Some l, Some r => Some (l ++ r)
      | _, _ => None
      end
    else Some []
  end.
Definition hexDump (mem : Z -> Z) (bytes : Z) : option (list Z) := dump_loop (S (Z.to_nat bytes)) mem bytes 0.
