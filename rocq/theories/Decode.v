(** Model of printing one message in the decompressor,
    decompressNextLogStatement, runtime/Log.cc:1388-1660, and printSingleArg,
    Log.cc:1256-1284 (the context in front of the message is in TimeFmt.v). *)
From Verif Require Import Base Packer Chars Fmt MicroCode Args Printf.

(** How a fragment's argument is fetched: the switch of Log.cc:1451-1640. *)
Inductive dkind := DNone | DInt (t : ity) | DFlt (size : Z) | DPtr | DStr | DWStr.

Definition dkind_of (t : ftype) : dkind :=
  match t with
  | NONE => DNone
  | unsigned_char_t => DInt (Ity false 1)
  | unsigned_short_int_t => DInt (Ity false 2)
  | unsigned_int_t => DInt (Ity false 4)
  | unsigned_long_int_t | unsigned_long_long_int_t | uintmax_t_t | size_t_t => DInt (Ity false 8)
  | wint_t_t => DInt (Ity false 4)
  | signed_char_t => DInt (Ity true 1)
  | short_int_t => DInt (Ity true 2)
  | int_t => DInt (Ity true 4)
  | long_int_t | long_long_int_t | intmax_t_t | ptrdiff_t_t => DInt (Ity true 8)
  | double_t => DFlt 8
  | long_double_t => DFlt 16
  | const_void_ptr_t => DPtr
  | const_char_ptr_t => DStr
  | const_wchar_t_ptr_t => DWStr
  end.

(** The strings strlen and wcslen find at [p]; [fuel] elements can be read
    before the end of the storage.  [None]: they run out of it. *)
Fixpoint mstr (fuel : nat) (m : mem) (p : Z) : option (list Z) :=
  match fuel with
  | O => None
  | S f => if m p =? 0 then Some [] else option_map (cons (m p)) (mstr f m (p + 1))
  end.

Definition wchar_at (m : mem) (p : Z) : Z := to_s 32 (le_val (load m p 4)).

Fixpoint mwstr (fuel : nat) (m : mem) (p : Z) : option (list Z) :=
  match fuel with
  | O => None
  | S f => if wchar_at m p =? 0 then Some [] else option_map (cons (wchar_at m p)) (mwstr f m (p + 4))
  end.

(** printSingleArg, Log.cc:1256-1284: the arguments given to fprintf. *)
Definition fprintf_args (width precision : Z) (a : va) : list va :=
  let i z := VaInt (Ity true 4) z in
  if (width <? 0) && (precision <? 0) then [a]
  else if (0 <=? width) && (precision <? 0) then [i width; a]
  else if (0 <=? width) && (0 <=? precision) then [i width; i precision; a]
  else [i precision; a].

(** The argument of one fragment: what is passed on, the nibbler and
    nextStringArg afterwards.  [lim] is the end of the storage. *)
Definition fetch (k : dkind) (m : mem) (lim : Z) (nb : nibbler) (str : Z)
    : option (option va * nibbler * Z) :=
  match k with
  | DNone => Some (None, nb, str)
  | DInt t => match getNext_int t m nb with
              | Some (v, nb') => Some (Some (VaInt t v), nb', str)
              | None => None
              end
  | DFlt size => match getNext_float size m nb with
                 | Some (f, nb') => Some (Some (VaFlt f), nb', str)
                 | None => None
                 end
  | DPtr => match getNext_ptr m nb with
            | Some (v, nb') => Some (Some (VaPtr v PoNone), nb', str)
            | None => None
            end
  | DStr => match mstr (Z.to_nat (lim - str)) m str with
            | Some s => Some (Some (VaPtr str (PoChars (s ++ [0]))), nb, str + zlen s + 1)
            | None => None
            end
  | DWStr => match mwstr (Z.to_nat ((lim - str) / 4)) m str with
             | Some s => Some (Some (VaPtr str (PoWide (s ++ [0]))), nb, str + (zlen s + 1) * 4)
             | None => None
             end
  end.

Definition next_int (dyn : bool) (m : mem) (nb : nibbler) : option (Z * nibbler) :=
  if dyn then getNext_int (Ity true 4) m nb else Some (-1, nb).

(** State: text printed, arguments pushed to the LogMessage, nibbler,
    nextStringArg. *)
Record pst := Pst { ps_text : list Z; ps_pushed : list va; ps_nb : nibbler; ps_str : Z }.

(** One iteration of the loop of Log.cc:1440-1650.  [None]: a failed assertion
    or undefined behaviour. *)
Definition print_frag (conv : rconv -> list Z) (m : mem) (lim : Z) (f : frag) (s : pst) : option pst :=
  match next_int (fr_dw f) m (ps_nb s) with
  | None => None
  | Some (width, nb1) =>
    match next_int (fr_dp f) m nb1 with
    | None => None
    | Some (precision, nb2) =>
      match fetch (dkind_of (fr_type f)) m lim nb2 (ps_str s) with
      | None => None
      | Some (a, nb3, str) =>
        match printf conv (fr_text f)
                (match a with Some v => fprintf_args width precision v | None => [] end) with
        | None => None
        | Some t => Some (Pst (ps_text s ++ t)
                              (ps_pushed s ++ match a with Some v => [v] | None => [] end) nb3 str)
        end
      end
    end
  end.

Fixpoint print_frags (conv : rconv -> list Z) (m : mem) (lim : Z) (fs : list frag) (s : pst) : option pst :=
  match fs with
  | [] => Some s
  | f :: r => match print_frag conv m lim f s with
              | Some s' => print_frags conv m lim r s'
              | None => None
              end
  end.

(** The message body: text, pushed arguments, readPos afterwards. *)
Definition print_message (conv : rconv -> list Z) (mc : microcode) (m : mem) (readPos lim : Z)
    : option (list Z * list va * Z) :=
  let nb := nibbler_init m readPos (mc_numNibbles mc) in
  match print_frags conv m lim (firstn (Z.to_nat (mc_numFrags mc)) (mc_frags mc))
          (Pst [] [] nb (nb_end nb)) with
  | Some s => Some (ps_text s, ps_pushed s, ps_str s)
  | None => None
  end.
