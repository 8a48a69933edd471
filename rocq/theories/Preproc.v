(** Model of the parts of the Python preprocessor that turn a log statement's
    source text into identifiers, fragments and argument types:
    preprocessor/FunctionGenerator.py and preprocessor/parser.py.  Characters are
    code points; Python's [isalnum], [isspace] and the regular expression class
    [\d] are modelled on ASCII. *)
From Verif Require Import Base Chars Regex MicroCode Fmt.

(** ** Identifiers *)

Definition in_rng (a b c : Z) : bool := (a <=? c) && (c <=? b).

(** [c.isalnum()]. *)
Definition is_alnum (c : Z) : bool := in_rng 48 57 c || in_rng 65 90 c || in_rng 97 122 c.

(** [str(n)] for n >= 0. *)
Fixpoint dec_digits (fuel : nat) (n : Z) (acc : list Z) : list Z :=
  match fuel with
  | O => acc
  | S f => if n <? 10 then 48 + n :: acc else dec_digits f (n / 10) (48 + n mod 10 :: acc)
  end.
Definition dec_str (n : Z) : list Z := dec_digits (S (Z.to_nat (Z.log2 n))) n [].

(** [encode] of generateLogIdStr, FunctionGenerator.py:895-896. *)
Definition encode_char (c : Z) : list Z := if is_alnum c then [c] else dec_str c.
Definition encode (s : list Z) : list Z := flat_map encode_char s.

(** generateLogIdStr, FunctionGenerator.py:894-898. *)
Definition log_id (fmt file : list Z) (line : Z) : list Z :=
  chars "__" ++ encode fmt ++ chars "__" ++ encode file ++ chars "__" ++ dec_str line ++ chars "__".

(** A log statement as found by the parser. *)
Record stmt := Stmt { st_level : list Z; st_fmt : list Z; st_file : list Z; st_line : Z }.

(** logId2Code, FunctionGenerator.py:76-115: identifier to generated code; of the
    code only the statement it was made from matters here.  The dictionary starts
    with one invalid entry. *)
Definition table := list (list Z * stmt).
Definition invalid_key : list Z := chars "__INVALID__INVALID__INVALID__".
Definition table_init : table := [(invalid_key, Stmt [] (chars "INVALID") (chars "INVALID.cc") (-1))].

Fixpoint lookup (k : list Z) (t : table) : option stmt :=
  match t with
  | [] => None
  | (k', s) :: r => if zlist_eqb k k' then Some s else lookup k r
  end.

(** generateLogFunctions as far as the table goes, FunctionGenerator.py:346-351
    and 709. *)
Definition generate (t : table) (s : stmt) : table :=
  let k := log_id (st_fmt s) (st_file s) (st_line s) in
  match lookup k t with Some _ => t | None => t ++ [(k, s)] end.

Definition process (unit_ : list stmt) : table := fold_left generate unit_ table_init.

(** [mergedCode.update(...)] over all mapping files, FunctionGenerator.py:158-162:
    entries of later files replace those of earlier ones. *)
Definition merge (units : list (list stmt)) : table := concat (rev (map process units)).

(** The static information the decompressor gets for a statement. *)
Definition static_info (units : list (list stmt)) (s : stmt) : option stmt :=
  lookup (log_id (st_fmt s) (st_file s) (st_line s)) (merge units).

(** ** String literals *)

(** [c.isspace()]. *)
Definition is_space (c : Z) : bool := in_rng 9 13 c || in_rng 28 32 c.

(** extractCString, parser.py:113-132.  [splitlines] only groups the
    characters. *)
Fixpoint extract (s out : list Z) (inQuotes prevWasEscape : bool) : option (list Z) :=
  match s with
  | [] => if inQuotes then None else Some out
  | c :: r =>
    if (c =? 34) && negb prevWasEscape then extract r out (negb inQuotes) prevWasEscape
    else if inQuotes then extract r (out ++ [c]) inQuotes (c =? c_bsl)
    else if is_space c then extract r out inQuotes prevWasEscape
    else None
  end.
Definition extractCString (source : list Z) : option (list Z) := extract source [] false false.

(** ** Fragments *)

(** FmtType, FunctionGenerator.py:717: type, width and precision ([None], a
    number or [*]), substring. *)
Inductive field := FNone | FNum (n : Z) | FStar.
Record fmttype := FmtType { ft_type : ftype; ft_width : field; ft_prec : field; ft_sub : list Z }.

(** [fmt.group('width')], then [int(float(width))], FunctionGenerator.py:799-804
    (exact up to 2^53). *)
Definition to_field (g : list Z) : field :=
  match g with
  | [] => FNone
  | _ => if zlist_eqb g [c_star] then FStar else FNum (dec_val g)
  end.

Definition len_is (len : list Z) (s : String.string) : bool := zlist_eqb len (chars s).
Arguments len_is len s%string_scope.

(** The C type of a specifier, FunctionGenerator.py:806-869; [None]: ValueError. *)
Definition py_type (len : list Z) (c : Z) : option ftype :=
  let uns := mem_char c (chars "uoxX") in
  if mem_char c (chars "diuoxX") then
    if len_is len "" then Some (if uns then unsigned_int_t else int_t)
    else if len_is len "hh" then Some (if uns then unsigned_char_t else signed_char_t)
    else if len_is len "h" then Some (if uns then unsigned_short_int_t else short_int_t)
    else if len_is len "l" then Some (if uns then unsigned_long_int_t else long_int_t)
    else if len_is len "ll" then Some (if uns then unsigned_long_long_int_t else long_long_int_t)
    else if len_is len "j" then Some (if mem_char c (chars "di") then intmax_t_t else uintmax_t_t)
    else if len_is len "z" || len_is len "Z" then Some size_t_t
    else if len_is len "t" then Some ptrdiff_t_t
    else None
  else if mem_char c (chars "fFeEgGaA") then
    if len_is len "L" then Some long_double_t else Some double_t
  else if c =? ch "p" then if len_is len "" then Some const_void_ptr_t else None
  else if c =? ch "s" then
    if len_is len "" then Some const_char_ptr_t
    else if len_is len "l" then Some const_wchar_t_ptr_t else None
  else if c =? ch "c" then
    if len_is len "" then Some int_t
    else if len_is len "l" then Some wint_t_t else None
  else None.

(** [fmtString[a:b]]. *)
Definition pyslice (a b : nat) (s : list Z) : list Z := firstn (b - a) (skipn a s).

(** The scan, FunctionGenerator.py:748-781: positions as in the source.  The
    regular expression is that of Log.cc:847-853.  [None]: ValueError.  Result:
    matches with their substrings, and startOfNextSpecifierSubstring. *)
Fixpoint py_scan (fuel : nat) (fmt : list Z) (i : nat) (consecutivePercents : Z) (start : nat)
    (ms : list (caps * list Z)) : option (list (caps * list Z) * nat) :=
  match fuel with
  | O => Some (ms, start)
  | S f =>
    match skipn i fmt with
    | [] => Some (ms, start)
    | c :: r =>
      if c =? c_bsl then py_scan f fmt (S (S i)) consecutivePercents start ms
      else if c =? c_pct then
        let cp := consecutivePercents + 1 in
        if cp mod 2 =? 1 then
          match rx_first spec_re (c :: r) with
          | Some (RM g matched _) =>
            let endPos := (i + length matched)%nat in
            py_scan f fmt (S i) cp endPos (ms ++ [(g, pyslice start endPos fmt)])
          | None =>
            match r with
            | c2 :: _ => if c2 =? c_pct then py_scan f fmt (S i) cp start ms else None
            | [] => None
            end
          end
        else py_scan f fmt (S i) cp start ms
      else py_scan f fmt (S i) 0 start ms
    end
  end.

(** Folding in the remainder, FunctionGenerator.py:785-791. *)
Fixpoint fold_rest (ms : list (caps * list Z)) (rest : list Z) : list (caps * list Z) :=
  match ms with
  | [] => []
  | [(g, s)] => [(g, s ++ rest)]
  | m :: ms' => m :: fold_rest ms' rest
  end.

Definition py_fmttype (m : caps * list Z) : option fmttype :=
  let g := fst m in
  match py_type (group 5 g) (hd0 (group 6 g)) with
  | Some t => Some (FmtType t (to_field (group 2 g)) (to_field (group 4 g)) (snd m))
  | None => None
  end.

Fixpoint all_some {A} (l : list (option A)) : option (list A) :=
  match l with
  | [] => Some []
  | Some x :: r => option_map (cons x) (all_some r)
  | None :: _ => None
  end.

(** splitAndParseTypesInFmtString, FunctionGenerator.py:738-872. *)
Definition splitAndParse (fmt : list Z) : option (list fmttype) :=
  match py_scan (length fmt) fmt 0 0 0 [] with
  | None => None
  | Some ([], _) => Some [FmtType NONE FNone FNone fmt]
  | Some (ms, start) => all_some (map py_fmttype (fold_rest ms (skipn start fmt)))
  end.

(** The argument list of the generated record function, FunctionGenerator.py:356-370. *)
Definition arg_types (fs : list fmttype) : list ftype :=
  flat_map (fun f => match ft_type f with
                     | NONE => []
                     | t => match ft_width f with FStar => [int_t] | _ => [] end
                            ++ match ft_prec f with FStar => [int_t] | _ => [] end ++ [t]
                     end) fs.
