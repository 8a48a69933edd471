(** Specification of printf (C11 7.21.6.1) up to the rendering of one resolved
    conversion.  Independent of NanoLog. *)
From Verif Require Import Base Packer Chars Fmt Args.

(** What a variable argument is after the default promotions. *)
Inductive pointee := PoNone | PoChars (buf : list Z) | PoWide (buf : list Z).
Inductive va :=
| VaInt (t : ity) (v : Z)       (* integer types narrower than int count as int *)
| VaFlt (f : flt)
| VaPtr (addr : Z) (p : pointee).

Definition promote (a : arg) : va :=
  match a with
  | AInt t v => VaInt t v
  | AFlt bs => VaFlt (if zlen bs =? 4 then F32w bs else if zlen bs =? 8 then F64 bs else F80 bs)
  | AStr p buf => VaPtr p (PoChars buf)
  | AWStr p buf => VaPtr p (PoWide buf)
  | AVoid p => VaPtr p PoNone
  | APtr e p buf => VaPtr p (if e =? 1 then PoChars buf else PoNone)
  end.

(** A conversion with everything resolved: this is what an implementation of
    printf turns into text. *)
Inductive rval := RInt (v : Z) | RFlt (f : flt) | RPtr (a : Z) | RStr (bs : list Z) | RWStr (ws : list Z).
Record rconv := RConv {
  rc_flags : list Z; rc_width : option Z; rc_prec : option Z;
  rc_len : list Z; rc_conv : Z; rc_val : rval
}.

(** The characters of a string argument a conversion may look at: up to the
    terminator, and no more than the precision.  [None]: it would read past the
    object. *)
Fixpoint up_to_nul (buf : list Z) : option (list Z) :=
  match buf with
  | [] => None
  | c :: r => if c =? 0 then Some [] else match up_to_nul r with Some s => Some (c :: s) | None => None end
  end.

Definition visible (prec : option Z) (buf : list Z) : option (list Z) :=
  match prec with
  | None => up_to_nul buf
  | Some n => match up_to_nul buf with
              | Some s => Some (firstn (Z.to_nat n) s)
              | None => if n <=? zlen buf then Some (firstn (Z.to_nat n) buf) else None
              end
  end.

(** The integer type a conversion converts its argument to. *)
Definition conv_ity (sp : spec) : ity :=
  if mem_char (sp_conv sp) (chars "di") then
    Ity true (if zlist_eqb (sp_len sp) (chars "hh") then 1 else if zlist_eqb (sp_len sp) (chars "h") then 2
              else if zlist_eqb (sp_len sp) [] then 4 else 8)
  else if mem_char (sp_conv sp) (chars "c") then
    Ity false (if zlist_eqb (sp_len sp) [] then 1 else 4)
  else
    Ity false (if zlist_eqb (sp_len sp) (chars "hh") then 1 else if zlist_eqb (sp_len sp) (chars "h") then 2
               else if zlist_eqb (sp_len sp) [] then 4 else 8).

(** Size of an integer argument after promotion. *)
Definition promoted_bytes (t : ity) : Z := Z.max 4 (Z.of_nat (it_bytes t)).

(** The value a conversion takes from its argument; [None]: type mismatch or
    out-of-bounds string, undefined behaviour. *)
Definition take (sp : spec) (prec : option Z) (a : va) : option rval :=
  match conv_kind sp, a with
  | CkInt n, VaInt t v =>
      if promoted_bytes t =? Z.max 4 n then Some (RInt (cast (conv_ity sp) v)) else None
  | CkDouble, VaFlt (F64 bs) => Some (RFlt (F64 bs))
  | CkDouble, VaFlt (F32w bs) => Some (RFlt (F32w bs))
  | CkLongDouble, VaFlt (F80 bs) => Some (RFlt (F80 bs))
  | CkPtr, VaPtr p _ => Some (RPtr p)
  | CkStr, VaPtr _ (PoChars buf) => option_map RStr (visible prec buf)
  | CkWStr, VaPtr _ (PoWide buf) => option_map RWStr (visible prec buf)
  | _, _ => None
  end.

(** The int taken by a [*]. *)
Definition take_int (a : va) : option Z :=
  match a with
  | VaInt t v => if promoted_bytes t =? 4 then Some (to_s 32 v) else None
  | _ => None
  end.

Definition take_width (w : width) (vs : list va) : option (list Z * option Z * list va) :=
  match w with
  | WNone => Some ([], None, vs)
  | WNum ds => Some ([], Some (dec_val ds), vs)
  | WStar =>
    match vs with
    | v :: r => match take_int v with
                | Some n => Some (if n <? 0 then ([45], Some (- n), r) else ([], Some n, r))
                | None => None
                end
    | [] => None
    end
  end.

Definition take_prec (p : prec) (vs : list va) : option (option Z * list va) :=
  match p with
  | PrNone => Some (None, vs)
  | PrNum ds => Some (Some (dec_val ds), vs)
  | PrStar =>
    match vs with
    | v :: r => match take_int v with
                | Some n => Some (if n <? 0 then None else Some n, r)
                | None => None
                end
    | [] => None
    end
  end.

Definition resolve (sp : spec) (vs : list va) : option (rconv * list va) :=
  match take_width (sp_width sp) vs with
  | None => None
  | Some (extra, w, vs1) =>
    match take_prec (sp_prec sp) vs1 with
    | None => None
    | Some (pr, vs2) =>
      match vs2 with
      | [] => None
      | v :: vs3 =>
        match take sp pr v with
        | None => None
        | Some x => Some (RConv (extra ++ sp_flags sp) w pr (sp_len sp) (sp_conv sp) x, vs3)
        end
      end
    end
  end.

(** The text printf prints, given the rendering [conv] of single conversions;
    [None]: undefined behaviour.  Excess arguments are ignored. *)
Fixpoint run (conv : rconv -> list Z) (ps : list piece) (vs : list va) : option (list Z) :=
  match ps with
  | [] => Some []
  | Lit c :: r => option_map (cons c) (run conv r vs)
  | Pct :: r => option_map (cons c_pct) (run conv r vs)
  | Conv sp :: r =>
    match resolve sp vs with
    | None => None
    | Some (rc, vs') => option_map (app (conv rc)) (run conv r vs')
    end
  end.

(** The conversions of a format with everything they take from the arguments,
    in order. *)
Fixpoint resolved (ps : list piece) (vs : list va) : option (list (spec * rconv)) :=
  match ps with
  | [] => Some []
  | Lit _ :: r | Pct :: r => resolved r vs
  | Conv sp :: r =>
    match resolve sp vs with
    | None => None
    | Some (rc, vs') => option_map (cons (sp, rc)) (resolved r vs')
    end
  end.

(** An argument that gives a resolved conversion its value. *)
Definition gives (c : spec * rconv) (v : va) : Prop :=
  take (fst c) (rc_prec (snd c)) v = Some (rc_val (snd c)).

Definition printf (conv : rconv -> list Z) (fmt : list Z) (vs : list va) : option (list Z) :=
  match parse fmt with Some ps => run conv ps vs | None => None end.
