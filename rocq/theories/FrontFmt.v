(** Model of the compile-time format analysis, runtime/NanoLogCpp17.h:46-342. *)
From Verif Require Import Base Chars.

(** ParamType, runtime/Log.h:88-111; non-negative values are static string
    precisions. *)
Definition PT_INVALID := -6.
Definition PT_DYNAMIC_WIDTH := -5.
Definition PT_DYNAMIC_PRECISION := -4.
Definition PT_NON_STRING := -3.
Definition PT_STRING_WITH_DYNAMIC_PRECISION := -2.
Definition PT_STRING_WITH_NO_PRECISION := -1.

Definition INT_MAX := 2147483647.

(** isTerminal, NanoLogCpp17.h:56-69. *)
Definition isTerminal (c : Z) : bool := mem_char c (chars "diuoxXfFeEgGaAcp%sn").
(** isFlag, NanoLogCpp17.h:81-85. *)
Definition isFlag (c : Z) : bool := mem_char c (chars "-+ #0").
(** isLength, NanoLogCpp17.h:97-102. *)
Definition isLength (c : Z) : bool := mem_char c (chars "hljztL").
(** isDigit, NanoLogCpp17.h:112-115. *)
Definition isDigit (c : Z) : bool := (48 <=? c) && (c <=? 57).

(** [while (pred(fmt[pos])) ++pos;] on the remaining characters. *)
Fixpoint skip (f : Z -> bool) (s : list Z) : list Z :=
  match s with c :: r => if f c then skip f r else s | [] => [] end.

(** Lines 189-193: [precision = 10*precision + digit]; signed overflow makes the
    constant expression ill-formed ([None]). *)
Fixpoint read_precision (acc : Z) (s : list Z) : option (Z * list Z) :=
  match s with
  | c :: r => if isDigit c then
                let acc' := 10 * acc + (c - 48) in
                if INT_MAX <? acc' then None else read_precision acc' r
              else Some (acc, s)
  | [] => Some (acc, s)
  end.

(** Outcome of analysing one specifier: the function returns, throws (which in a
    constant expression means the program is rejected), or goes on. *)
Inductive gres := Ret (t : Z) | Throw | Next (s : list Z) (paramNum : nat).

(** Lines 205-231: from the length field on. *)
Definition gpi_tail (s : list Z) (paramNum : nat) (hasDynamicPrecision : bool) (precision : Z) : gres :=
  let s := skip isLength s in
  if negb (isTerminal (hd0 s)) then Throw
  else if hd0 s =? 110 (* n *) then Throw
  else match paramNum with
       | S k => Next (tl s) k
       | O => if negb (hd0 s =? 115) then Ret PT_NON_STRING
              else if hasDynamicPrecision then Ret PT_STRING_WITH_DYNAMIC_PRECISION
              else if precision =? -1 then Ret PT_STRING_WITH_NO_PRECISION
              else Ret precision
       end.

(** Lines 180-203: precision. *)
Definition gpi_prec (s : list Z) (paramNum : nat) : gres :=
  if hd0 s =? c_dot then
    let s := tl s in
    if hd0 s =? c_star then
      match paramNum with
      | O => Ret PT_DYNAMIC_PRECISION
      | S k => gpi_tail (tl s) k true (-1)
      end
    else match read_precision 0 s with
         | Some (p, s') => gpi_tail s' paramNum false p
         | None => Throw
         end
  else gpi_tail s paramNum false (-1).

(** Lines 162-178: flags and width, after the [%]. *)
Definition gpi_spec (s : list Z) (paramNum : nat) : gres :=
  let s := skip isFlag s in
  if hd0 s =? c_star then
    match paramNum with
    | O => Ret PT_DYNAMIC_WIDTH
    | S k => gpi_prec (tl s) k
    end
  else gpi_prec (skip isDigit s) paramNum.

(** getParamInfo, NanoLogCpp17.h:131-236, on the characters of the literal
    without its terminating NUL ([hd0] supplies it).  [None]: rejected by the
    compiler.  Every iteration consumes a character, so [fuel] is the length. *)
Fixpoint gpi (fuel : nat) (s : list Z) (paramNum : nat) : option Z :=
  match fuel with
  | O => Some PT_INVALID
  | S f =>
    match s with
    | [] => Some PT_INVALID
    | c :: r =>
      if negb (c =? c_pct) then gpi f r paramNum
      else if hd0 r =? c_pct then gpi f (tl r) paramNum
      else match gpi_spec r paramNum with
           | Ret t => Some t
           | Throw => None
           | Next s' k => gpi f s' k
           end
    end
  end.

Definition getParamInfo (fmt : list Z) (paramNum : nat) : option Z := gpi (length fmt) fmt paramNum.

(** countFmtParams, NanoLogCpp17.h:307-315; a string has fewer parameters than
    [fuel]. *)
Fixpoint count_from (fuel : nat) (fmt : list Z) (count : nat) : option nat :=
  match fuel with
  | O => None
  | S f => match getParamInfo fmt count with
           | None => None
           | Some t => if t =? PT_INVALID then Some count else count_from f fmt (S count)
           end
  end.
Definition countFmtParams (fmt : list Z) : option nat := count_from (S (length fmt)) fmt 0.

(** analyzeFormatString, NanoLogCpp17.h:256-289. *)
Fixpoint analyze_from (fmt : list Z) (i n : nat) : option (list Z) :=
  match n with
  | O => Some []
  | S n' => match getParamInfo fmt i, analyze_from fmt (S i) n' with
            | Some t, Some ts => Some (t :: ts)
            | _, _ => None
            end
  end.
Definition analyzeFormatString (fmt : list Z) (nParams : nat) : option (list Z) :=
  analyze_from fmt 0 nParams.

(** getNumNibblesNeeded, NanoLogCpp17.h:330-342. *)
Fixpoint nibbles_loop (fmt : list Z) (i n : nat) (acc : Z) : option Z :=
  match n with
  | O => Some acc
  | S n' => match getParamInfo fmt i with
            | None => None
            | Some t => nibbles_loop fmt (S i) n'
                          (if (t =? PT_NON_STRING) || (t =? PT_DYNAMIC_PRECISION)
                              || (t =? PT_DYNAMIC_WIDTH) then acc + 1 else acc)
            end
  end.
Definition getNumNibblesNeeded (fmt : list Z) : option Z :=
  match countFmtParams fmt with
  | None => None
  | Some n => nibbles_loop fmt 0 n 0
  end.

(** The three constants of a NANO_LOG expansion, NanoLogCpp17.h:1074-1083:
    numNibbles, nParams and paramTypes.  [None]: does not compile. *)
Definition analyze (fmt : list Z) : option (Z * nat * list Z) :=
  match getNumNibblesNeeded fmt, countFmtParams fmt with
  | Some nib, Some n =>
      match analyzeFormatString fmt n with
      | Some ts => Some (nib, n, ts)
      | None => None
      end
  | _, _ => None
  end.
