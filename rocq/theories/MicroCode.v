(** Model of the decompressor's reading of format strings,
    runtime/Log.cc:722-979. *)
From Verif Require Import Base Chars Regex.

(** FormatType, runtime/Log.h:439-466. *)
Inductive ftype :=
| NONE
| unsigned_char_t | unsigned_short_int_t | unsigned_int_t | unsigned_long_int_t
| unsigned_long_long_int_t | uintmax_t_t | size_t_t | wint_t_t
| signed_char_t | short_int_t | int_t | long_int_t | long_long_int_t | intmax_t_t | ptrdiff_t_t
| double_t | long_double_t | const_void_ptr_t | const_char_ptr_t | const_wchar_t_ptr_t.

Definition ch (s : String.string) : Z := hd 0 (chars s).
Arguments ch s%string_scope.

(** getFormatType, Log.cc:722-801; [None] is MAX_FORMAT_TYPE. *)
Definition getFormatType (len : list Z) (specifier : Z) : option ftype :=
  let l0 := hd0 len in
  let two := Nat.eqb (length len) 2 in
  if mem_char specifier (chars "di") then
    match len with
    | [] => Some int_t
    | _ =>
      if two && (l0 =? ch "h") then Some signed_char_t
      else if two && (l0 =? ch "l") then Some long_long_int_t
      else if l0 =? ch "h" then Some short_int_t
      else if l0 =? ch "l" then Some long_int_t
      else if l0 =? ch "j" then Some intmax_t_t
      else if l0 =? ch "z" then Some size_t_t
      else if l0 =? ch "t" then Some ptrdiff_t_t
      else None
    end
  else if mem_char specifier (chars "uoxX") then
    match len with
    | [] => Some unsigned_int_t
    | _ =>
      if two && (l0 =? ch "h") then Some unsigned_char_t
      else if two && (l0 =? ch "l") then Some unsigned_long_long_int_t
      else if l0 =? ch "h" then Some unsigned_short_int_t
      else if l0 =? ch "l" then Some unsigned_long_int_t
      else if l0 =? ch "j" then Some uintmax_t_t
      else if l0 =? ch "z" then Some size_t_t
      else if l0 =? ch "t" then Some ptrdiff_t_t
      else None
    end
  else if specifier =? ch "s" then
    match len with
    | [] => Some const_char_ptr_t
    | _ => if l0 =? ch "l" then Some const_wchar_t_ptr_t else None
    end
  else if specifier =? ch "p" then
    match len with [] => Some const_void_ptr_t | _ => None end
  else if mem_char specifier (chars "fFeEgGaA") then
    if Nat.eqb (length len) 1 && (l0 =? ch "L") then Some long_double_t else Some double_t
  else if specifier =? ch "c" then
    match len with
    | [] => Some int_t
    | _ => if l0 =? ch "l" then Some wint_t_t else None
    end
  else None.

(** The regular expression of Log.cc:847-853, without the leading [^], which
    anchors it at the searched position.  Groups as numbered there. *)
Definition spec_re : re :=
  RSeq (rlit c_pct)
  (RSeq (ROpt (RGrp 1 (RPlus (rset (chars "-+ #0")))))
  (RSeq (ROpt (RGrp 2 (RAlt (RPlus is_dig) (rlit c_star))))
  (RSeq (ROpt (RGrp 3 (RSeq (rlit c_dot) (RGrp 4 (RAlt (RPlus is_dig) (rlit c_star))))))
  (RSeq (ROpt (RGrp 5 (ralts [chars "hh"; chars "h"; chars "l"; chars "ll"; chars "j";
                               chars "z"; chars "Z"; chars "t"; chars "L"])))
        (RGrp 6 (RChr (rset (chars "diuoxXfFeEgGaAcspn")))))))).

(** PrintFragment, runtime/Log.h:411-430.  The text is kept without its NUL; its
    length (a uint16_t, see DESIGN.md) is implied. *)
Record frag := Frag { fr_type : ftype; fr_dw : bool; fr_dp : bool; fr_text : list Z }.

(** FormatMetadata, runtime/Log.h:385-405, with the fragments that follow it.
    numNibbles and numPrintFragments are uint8_t. *)
Record microcode := MicroCode {
  mc_numNibbles : Z; mc_numFrags : Z; mc_level : Z; mc_line : Z;
  mc_file : list Z; mc_frags : list frag
}.

Definition starts_star (s : list Z) : bool := match s with [] => false | c :: _ => c =? c_star end.

(** Result of the scan: fragments so far, text behind the last specifier. *)
Record scan := Scan { sc_frags : list frag; sc_rest : list Z; sc_nib : Z; sc_cnt : Z }.

(** The scan loop, Log.cc:866-945.  [s]: formatString from [i]; [acc]: the text
    from startOfNextFragment to [i].  The NUL at the end of the string takes part
    in the C++ loop without effect.  [None]: an unsupported specifier
    (Log.cc:903-909). *)
Fixpoint mc_scan (fuel : nat) (s acc : list Z) (consecutivePercents : Z)
    (frags : list frag) (nib cnt : Z) : option scan :=
  match fuel with
  | O => Some (Scan frags acc nib cnt)
  | S f =>
    match s with
    | [] => Some (Scan frags acc nib cnt)
    | c :: r =>
      if c =? c_bsl then                                          (* 870-873 *)
        mc_scan f (tl r) (acc ++ c :: firstn 1 r) consecutivePercents frags nib cnt
      else if negb (c =? c_pct) then                              (* 875-879 *)
        mc_scan f r (acc ++ [c]) 0 frags nib cnt
      else
        let cp := consecutivePercents + 1 in                      (* 882-887 *)
        match (if cp mod 2 =? 0 then None else rx_first spec_re s) with
        | None => mc_scan f r (acc ++ [c]) cp frags nib cnt
        | Some (RM g matched rest) =>
          let specifier := hd0 (group 6 g) in
          match getFormatType (group 5 g) specifier with
          | None => None
          | Some ty =>
            let dw := starts_star (group 2 g) in
            let dp := starts_star (group 4 g) in
            let nib1 := if negb (specifier =? ch "s") then to_u 8 (nib + 1) else nib in
            let nib2 := if dw then to_u 8 (nib1 + 1) else nib1 in
            let nib3 := if dp then to_u 8 (nib2 + 1) else nib2 in
            mc_scan f rest [] 0 (frags ++ [Frag ty dw dp (acc ++ matched)]) nib3 (to_u 8 (cnt + 1))
          end
        end
    end
  end.

(** Appending the rest of the string to the last fragment, Log.cc:957-966. *)
Fixpoint extend_last (frags : list frag) (rest : list Z) : list frag :=
  match frags with
  | [] => []
  | [Frag t w p x] => [Frag t w p (x ++ rest)]
  | f :: fs => f :: extend_last fs rest
  end.

(** createMicroCode, Log.cc:825-979.  [None]: returns false, having reset
    *microCode. *)
Definition createMicroCode (fmt file : list Z) (line level : Z) : option microcode :=
  match mc_scan (length fmt) fmt [] 0 [] 0 0 with
  | None => None
  | Some r =>
    match sc_frags r with
    | [] => Some (MicroCode (sc_nib r) 1 level line file [Frag NONE false false fmt])
    | fs => Some (MicroCode (sc_nib r) (sc_cnt r) level line file (extend_last fs (sc_rest r)))
    end
  end.
