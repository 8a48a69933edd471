(** Specification side: the printf format language (C11 7.21.6.1), written as an
    abstract syntax with a renderer and a parser.  Nothing here comes from
    NanoLog. *)
From Verif Require Import Base Chars.

Inductive width := WNone | WNum (ds : list Z) | WStar.
Inductive prec := PrNone | PrNum (ds : list Z) | PrStar.

(** One conversion specification: flags, width, precision, length modifier and
    conversion character. *)
Record spec := Spec {
  sp_flags : list Z; sp_width : width; sp_prec : prec; sp_len : list Z; sp_conv : Z
}.

(** A format is a sequence of ordinary characters, [%%] and conversions. *)
Inductive piece := Lit (c : Z) | Pct | Conv (sp : spec).

Definition render_width (w : width) : list Z :=
  match w with WNone => [] | WNum ds => ds | WStar => [c_star] end.
Definition render_prec (p : prec) : list Z :=
  match p with PrNone => [] | PrNum ds => c_dot :: ds | PrStar => [c_dot; c_star] end.
Definition render_spec (sp : spec) : list Z :=
  c_pct :: sp_flags sp ++ render_width (sp_width sp) ++ render_prec (sp_prec sp)
        ++ sp_len sp ++ [sp_conv sp].
Definition render_piece (p : piece) : list Z :=
  match p with Lit c => [c] | Pct => [c_pct; c_pct] | Conv sp => render_spec sp end.
Definition render (ps : list piece) : list Z := concat (map render_piece ps).

Definition flag_chars := chars "-+ #0".
Definition int_convs := chars "diuoxX".
Definition flt_convs := chars "fFeEgGaA".

Fixpoint zlist_eqb (a b : list Z) : bool :=
  match a, b with
  | [], [] => true
  | x :: a', y :: b' => (x =? y) && zlist_eqb a' b'
  | _, _ => false
  end.
Definition mem_str (s : list Z) (l : list (list Z)) : bool := existsb (zlist_eqb s) l.

(** Length modifiers with a meaning for each conversion (C11 7.21.6.1 p7);
    [%n] is left out: NanoLog documents that it is not supported. *)
Definition len_ok (len : list Z) (c : Z) : bool :=
  if mem_char c int_convs then
    mem_str len [[]; chars "hh"; chars "h"; chars "ll"; chars "l"; chars "j"; chars "z"; chars "t"]
  else if mem_char c flt_convs then mem_str len [[]; chars "l"; chars "L"]
  else if mem_char c (chars "cs") then mem_str len [[]; chars "l"]
  else if mem_char c (chars "p") then mem_str len [[]]
  else false.

Definition width_ok (w : width) : bool :=
  match w with
  | WNum ds => match ds with [] => false | d :: _ => forallb is_dig ds && negb (d =? 48) end
  | _ => true
  end.
Definition prec_ok (p : prec) : bool :=
  match p with PrNum ds => forallb is_dig ds | _ => true end.

Definition spec_ok (sp : spec) : bool :=
  forallb (fun c => mem_char c flag_chars) (sp_flags sp) && width_ok (sp_width sp)
  && prec_ok (sp_prec sp) && len_ok (sp_len sp) (sp_conv sp).

Definition piece_ok (p : piece) : bool :=
  match p with Lit c => negb (c =? c_pct) && negb (c =? 0) | Pct => true | Conv sp => spec_ok sp end.

(** Well-formed printf formats. *)
Definition fmt_ok (ps : list piece) : bool := forallb piece_ok ps.

(** The arguments a conversion takes, in order. *)
Inductive pclass :=
| KWidth                        (* the int of a * width *)
| KPrec                         (* the int of a .* precision *)
| KStr (limit : option Z)       (* %s: at most [limit] characters *)
| KStrDyn                       (* %s limited by the preceding .* argument *)
| KOther.

Definition dec_val (ds : list Z) : Z := fold_left (fun a c => 10 * a + (c - 48)) ds 0.

Definition spec_class (sp : spec) : pclass :=
  if sp_conv sp =? 115 (* s *) then
    match sp_prec sp with
    | PrNone => KStr None
    | PrNum ds => KStr (Some (dec_val ds))
    | PrStar => KStrDyn
    end
  else KOther.

Definition spec_params (sp : spec) : list pclass :=
  (match sp_width sp with WStar => [KWidth] | _ => [] end)
  ++ (match sp_prec sp with PrStar => [KPrec] | _ => [] end)
  ++ [spec_class sp].

Definition piece_params (p : piece) : list pclass :=
  match p with Conv sp => spec_params sp | _ => [] end.
Definition params (ps : list piece) : list pclass := concat (map piece_params ps).

(** Arguments that are not strings. *)
Definition is_nonstring (k : pclass) : bool :=
  match k with KStr _ | KStrDyn => false | _ => true end.

(** A parser for the grammar. *)
Fixpoint strip (p s : list Z) : option (list Z) :=
  match p, s with
  | [], _ => Some s
  | x :: p', y :: s' => if x =? y then strip p' s' else None
  | _ :: _, [] => None
  end.

(** The longest length modifier in front of [s]. *)
Fixpoint parse_len_from (mods : list (list Z)) (s : list Z) : list Z * list Z :=
  match mods with
  | [] => ([], s)
  | l :: mods' => match strip l s with Some r => (l, r) | None => parse_len_from mods' s end
  end.
Definition parse_len (s : list Z) : list Z * list Z :=
  parse_len_from [chars "hh"; chars "h"; chars "ll"; chars "l"; chars "j"; chars "z"; chars "t"; chars "L"] s.

Definition parse_width (s : list Z) : width * list Z :=
  if hd0 s =? c_star then (WStar, tl s)
  else let '(ds, r) := span is_dig s in
       (match ds with [] => WNone | _ => WNum ds end, r).

Definition parse_prec (s : list Z) : prec * list Z :=
  if hd0 s =? c_dot then
    if hd0 (tl s) =? c_star then (PrStar, tl (tl s))
    else let '(ds, r) := span is_dig (tl s) in (PrNum ds, r)
  else (PrNone, s).

(** What follows a [%]. *)
Definition parse_spec (s : list Z) : option (spec * list Z) :=
  let '(fl, s1) := span (fun c => mem_char c flag_chars) s in
  let '(w, s2) := parse_width s1 in
  let '(p, s3) := parse_prec s2 in
  let '(l, s4) := parse_len s3 in
  match s4 with
  | c :: r => if len_ok l c then Some (Spec fl w p l c, r) else None
  | [] => None
  end.

Fixpoint parse_fuel (n : nat) (s : list Z) : option (list piece) :=
  match n with
  | O => None
  | S n' =>
    match s with
    | [] => Some []
    | c :: r =>
      if c =? c_pct then
        if hd0 r =? c_pct then option_map (cons Pct) (parse_fuel n' (tl r))
        else match parse_spec r with
             | Some (sp, r') => option_map (cons (Conv sp)) (parse_fuel n' r')
             | None => None
             end
      else if c =? 0 then None
      else option_map (cons (Lit c)) (parse_fuel n' r)
    end
  end.

Definition parse (s : list Z) : option (list piece) := parse_fuel (S (length s)) s.

(** The conversions of a format. *)
Fixpoint convs (ps : list piece) : list spec :=
  match ps with [] => [] | Conv sp :: r => sp :: convs r | _ :: r => convs r end.

(** The type of argument a conversion takes (C11 7.21.6.1 p7-8 on an LP64
    machine): integers by size after conversion as the length modifier says. *)
Inductive ckind := CkInt (size : Z) | CkDouble | CkLongDouble | CkPtr | CkStr | CkWStr.

Definition conv_kind (sp : spec) : ckind :=
  let l := sp_len sp in
  if mem_char (sp_conv sp) int_convs then
    CkInt (if zlist_eqb l (chars "hh") then 1 else if zlist_eqb l (chars "h") then 2
           else if zlist_eqb l [] then 4 else 8)
  else if mem_char (sp_conv sp) flt_convs then
    (if zlist_eqb l (chars "L") then CkLongDouble else CkDouble)
  else if mem_char (sp_conv sp) (chars "c") then CkInt 4
  else if mem_char (sp_conv sp) (chars "s") then (if zlist_eqb l (chars "l") then CkWStr else CkStr)
  else CkPtr.

Definition dyn_width (sp : spec) : bool := match sp_width sp with WStar => true | _ => false end.
Definition dyn_prec (sp : spec) : bool := match sp_prec sp with PrStar => true | _ => false end.
