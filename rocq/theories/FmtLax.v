(** Specification side: the larger format language the compile-time analysis
    really accepts.  It differs from printf's (Fmt.v) in taking any run of length
    modifier characters and [%] as a conversion behind modifiers; a static
    precision must fit an int. *)
From Verif Require Import Base Chars Fmt.

Definition lax_spec_ok (sp : spec) : bool :=
  forallb (fun c => mem_char c flag_chars) (sp_flags sp)
  && width_ok (sp_width sp)
  && (match sp_prec sp with PrNum ds => forallb is_dig ds && (dec_val ds <=? 2147483647) | _ => true end)
  && forallb (fun c => mem_char c (chars "hljztL")) (sp_len sp)
  && mem_char (sp_conv sp) (chars "diuoxXfFeEgGaAcp%s")
  && negb ((sp_conv sp =? c_pct)
           && match sp_flags sp, sp_width sp, sp_prec sp, sp_len sp with
              | [], WNone, PrNone, [] => true | _, _, _, _ => false end).

Definition lax_piece_ok (p : piece) : bool :=
  match p with Lit c => negb (c =? c_pct) | Pct => true | Conv sp => lax_spec_ok sp end.
Definition lax_ok (ps : list piece) : bool := forallb lax_piece_ok ps.

(** Static precisions within the range of int. *)
Definition prec_int (ps : list piece) : bool :=
  forallb (fun p => match p with
                    | Conv (Spec _ _ (PrNum ds) _ _) => dec_val ds <=? 2147483647
                    | _ => true end) ps.
