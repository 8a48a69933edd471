(** C07: compile-time format analysis. *)
From Verif Require Import Base BaseProofs Chars Fmt FmtProofs FmtLax FrontFmt FrontFmtProofs.

(** How the analysis is documented to report a parameter (runtime/Log.h:88-111). *)
Definition report (k : pclass) : Z :=
  match k with
  | KWidth => PT_DYNAMIC_WIDTH
  | KPrec => PT_DYNAMIC_PRECISION
  | KOther => PT_NON_STRING
  | KStrDyn => PT_STRING_WITH_DYNAMIC_PRECISION
  | KStr None => PT_STRING_WITH_NO_PRECISION
  | KStr (Some n) => n
  end.

Lemma report_ptype : forall k, report k = ptype k.
Proof. destruct k as [| |[?|]| |]; reflexivity. Qed.

(** C07, first half.  For every printf format (with precisions an int can hold)
    the analysis reports exactly the parameters printf consumes, in order, each
    with its class, their number, and the number of non-string ones. *)
Theorem C07_analysis_exact : forall ps, fmt_ok ps = true -> prec_int ps = true ->
  analyze (render ps) =
  Some (zlen (filter is_nonstring (params ps)), length (params ps), map report (params ps)).
Proof.
  intros. rewrite (map_ext _ _ report_ptype). apply analyze_render. now apply fmt_ok_lax.
Qed.
Print Assumptions C07_analysis_exact.

Example C07_instance :
  let ps := [Lit 120; Conv (Spec [45; 48] WStar PrStar [108] 115); Pct;
             Conv (Spec [] (WNum [55]) (PrNum [49; 50]) [] 115); Conv (Spec [] WNone PrNone (chars "ll") 100)] in
  fmt_ok ps = true /\ prec_int ps = true /\
  render ps = chars "x%-0*.*ls%%%7.12s%lld" /\
  analyze (render ps) = Some (3, 5%nat, [-5; -4; -2; 12; -3]).
Proof. vm_compute. auto. Qed.

(** C07, second half: strings outside the printf grammar should be rejected. *)
Definition rejects_non_printf : Prop := forall s, analyze s <> None ->
  exists ps, fmt_ok ps = true /\ render ps = s.

Theorem C07_rejection_refuted : ~ rejects_non_printf.
Proof.
  intro H. destruct (H (chars "%5%")) as (ps & Hok & E).
  - vm_compute. discriminate.
  - apply parse_render in Hok. rewrite E in Hok. vm_compute in Hok. discriminate.
Qed.

(** Also length modifiers printf does not have get through. *)
Theorem C07_rejection_refuted_length : analyze (chars "%hzd") = Some (1, 1%nat, [-3]) /\
  forall ps, fmt_ok ps = true -> render ps <> chars "%hzd".
Proof.
  split; [vm_compute; reflexivity|]. intros ps Hok E.
  apply parse_render in Hok. rewrite E in Hok. vm_compute in Hok. discriminate.
Qed.

(** What is accepted, exactly: the language of FmtLax.v; and the report is exact
    on all of it.  In particular [%n], unknown conversions, a lone [%] and
    precisions beyond int never compile. *)
Theorem C07_accepted_partial : forall s,
  (exists r, analyze s = Some r) <-> (exists ps, render ps = s /\ lax_ok ps = true).
Proof.
  intro s. split.
  - intros (r & E). eapply analyze_lax; eauto.
  - intros (ps & <- & Hok). eexists. now apply analyze_render.
Qed.

Theorem C07_report_accepted : forall ps, lax_ok ps = true ->
  analyze (render ps) =
  Some (zlen (filter is_nonstring (params ps)), length (params ps), map report (params ps)).
Proof. intros. rewrite (map_ext _ _ report_ptype). now apply analyze_render. Qed.

Print Assumptions C07_rejection_refuted.
Print Assumptions C07_accepted_partial.
Print Assumptions C07_report_accepted.

Example C07_rejects : analyze (chars "%n") = None /\ analyze (chars "a%") = None /\
  analyze (chars "%y") = None /\ analyze (chars "%.2147483648s") = None /\
  analyze (chars "%.2147483647s") = Some (0, 1%nat, [2147483647]).
Proof. vm_compute. auto. Qed.
