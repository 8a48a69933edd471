(** C09: what the decompressor prints for a statement. *)
From Verif Require Import Base BaseProofs Packer PackerProofs Prop_Packer Chars Fmt FmtProofs FmtLax FrontFmt FrontFmtProofs
  Prop_FrontFmt Regex MicroCode MicroCodeProofs Prop_MicroCode Args Printf ArgsProofs Prop_Args Decode DecodeProofs.

(** The way of one message: the statement is analysed at compile time, recorded
    at [p], compressed to [o]; the compressed bytes reach the decompressor at
    [o'], where [lim] ends the storage; the message is printed with the
    description made from the dictionary entry.  Result: the text and how many
    bytes the decompressor consumed; [given] is said of the arguments handed to
    the LogMessage. *)
Definition printed_with (conv : rconv -> list Z) (fmt : list Z) (args : list arg) (text : list Z)
    (given : list va -> Prop) : Prop :=
  forall m p id ts mout o file line level, exists nib n pts mc r,
    analyze fmt = Some (nib, n, pts) /\
    createMicroCode fmt file line level = Some mc /\
    log_record m p id ts pts args = Some r /\
    let c := compress (map aty_of args) nib pts (lr_mem r) (p + 16) mout o in
    cs_in c = p + lr_alloc r /\
    forall m' o' lim, moved (cs_mem c) o m' o' (cs_out c - o) -> o' + (cs_out c - o) <= lim ->
      exists pushed, print_message conv mc m' o' lim = Some (text, pushed, o' + (cs_out c - o)) /\ given pushed.

Definition printed conv fmt args text : Prop := printed_with conv fmt args text (fun _ => True).

(** C09 in full: every statement whose printf is defined (one argument per
    parameter, NUL-terminated strings, precisions an int can hold) prints like
    printf. *)
Definition defined (conv : rconv -> list Z) (ps : list piece) (args : list arg) (text : list Z) : Prop :=
  fmt_ok ps = true /\ prec_int ps = true /\
  Forall wf_arg args /\ Forall string_fits args /\ length args = length (params ps) /\
  run conv ps (map promote args) = Some text.

Definition faithful : Prop := forall conv ps args text,
  defined conv ps args text -> printed conv (render ps) args text.

(** What is excluded in the guarded theorem, besides the formats C08 excludes:
    negative ints for [*] and [.*], and [%s] given a pointer that is not char* or
    wchar_t*. *)
Definition harmless (k : pclass) (a : arg) : Prop :=
  match k with
  | KStr _ | KStrDyn => is_string_arg a = true
  | KWidth | KPrec => forall n, take_int (promote a) = Some n -> 0 <= n
  | KOther => True
  end.

Lemma kstr_class_ok : forall ps, fmt_ok ps = true -> prec_int ps = true -> Forall class_ok (params ps).
Proof.
  intros ps Hok Hpi. apply Forall_forall. intros k Hin.
  destruct k as [| |[n|]| |]; cbn [class_ok]; auto.
  split; [eapply kstr_nonneg; eauto; now apply fmt_ok_lax|].
  unfold params in Hin. apply in_concat in Hin. destruct Hin as (l & H1 & H2).
  apply in_map_iff in H1. destruct H1 as (p & <- & H1).
  unfold prec_int in Hpi. rewrite forallb_forall in Hpi. specialize (Hpi p H1).
  destruct p as [c| |[fl w pr le c]]; try destruct H2. cbn [piece_params] in H2. unfold spec_params, spec_class in H2.
  cbn [sp_width sp_prec sp_conv] in *.
  apply in_app_or in H2. destruct H2 as [H2|H2].
  { destruct w; cbn in H2; intuition congruence. }
  apply in_app_or in H2. destruct H2 as [H2|H2].
  { destruct pr; cbn in H2; intuition congruence. }
  destruct H2 as [H2|[]]. destruct (c =? 115); [|congruence]. destruct pr; try congruence.
  assert (dec_val ds = n) by congruence. lia.
Qed.

Lemma pvals_count : forall ks args, Forall class_ok ks -> length args = length ks ->
  zlen (pvals (map report ks) args) = zlen (filter is_nonstring ks).
Proof.
  induction ks as [|k ks IH]; intros [|a args] Hk Hl; try discriminate Hl; [reflexivity|].
  inversion Hk; subst. cbn [map pvals filter]. rewrite report_strp by auto.
  assert (E : is_nonstring k = negb (is_strk k)) by (destruct k; reflexivity). rewrite E.
  specialize (IH args H2 ltac:(cbn in Hl; lia)).
  destruct (is_strk k); cbn [negb]; rewrite ?zlen_cons; lia.
Qed.

Lemma message_delivered : forall conv ps args text,
  defined conv ps args text -> backend_ok ps -> Forall2 harmless (params ps) args ->
  printed_with conv (render ps) args text
    (fun pushed => exists l, resolved ps (map promote args) = Some l /\ Forall2 gives l pushed).
Proof.
  intros conv ps args text (Hok & Hpi & Hw & Hf & Hlen & HR) HB HH m p id ts mout o file line level.
  pose proof (kstr_class_ok ps Hok Hpi) as Hc.
  assert (HA : Forall2 arg_ok (params ps) args).
  { clear - Hc Hw Hf HH. revert Hc Hw Hf. induction HH as [|k a ks as' Hh HH IH]; intros Hc Hw Hf; constructor.
    - inversion Hc; inversion Hw; inversion Hf; subst. unfold arg_ok. repeat split; auto.
      + destruct k; cbn in *; auto; discriminate.
      + intros [-> | ->]; exact Hh.
    - inversion Hc; inversion Hw; inversion Hf; subst. apply IH; auto. }
  destruct (C08_agreement_partial ps file line level HB)
    as (mc & gs & nib & n & pts & EA & EM & NN & CG & DG & NF & _ & _).
  rewrite (C07_analysis_exact ps Hok Hpi) in EA.
  assert (nib = nonstrings ps /\ n = length (params ps) /\ pts = map report (params ps)) as (-> & -> & ->)
    by (unfold nonstrings; repeat split; congruence).
  destruct (run_image conv ps args text None Hok HA HR) as (x & EX).
  destruct (recorded (params ps) args None (2 ^ 64 - 1) x Hc Hw Hf ltac:(lia) ltac:(cbn; lia) EX)
    as (ns & G & I & S1 & S2 & S3).
  destruct (C11_strings_cut (params ps) args m p id ts x Hc Hw Hf EX) as (r & ER & AL & LX).
  exists (nonstrings ps), (length (params ps)), (map report (params ps)), mc, r.
  split; [exact (C07_analysis_exact ps Hok Hpi)|]. split; [exact EM|]. split; [exact ER|].
  cbv zeta.
  pose proof (pvals_count (params ps) args Hc Hlen) as PC. fold (nonstrings ps) in PC.
  set (c := compress _ _ _ _ _ _ _). assert (EC : compress (map aty_of args) (zlen (pvals (map report (params ps)) args))
     (map report (params ps)) (lr_mem r) (p + 16) mout o = c) by (subst c; now rewrite PC).
  rewrite <- I in LX.
  destruct (compress_spec _ ns args (lr_mem r) (p + 16) mout o c S1 S2 Hw LX EC) as (B & LS & CO & CI & _ & _).
  set (xs := pvals (map report (params ps)) args) in *.
  split; [rewrite CI, I; lia|].
  intros m' o' lim Hm Hlim.
  pose proof (zlen_nonneg _ xs). pose proof (zlen_nonneg _ (pvalues xs)).
  pose proof (zlen_nonneg _ (strs (map report (params ps)) ns args)).
  assert (B' : block_at m' o' xs).
  { destruct B as [B1 B2]. split.
    - rewrite <- (Z.add_0_r o') . apply (moved_nibbles _ (cs_mem c) o m' o' (cs_out c - o)); auto; try lia.
      + rewrite pcodes_zlen. lia.
      + now rewrite Z.add_0_r.
    - rewrite (moved_load (cs_mem c) o m' o' (cs_out c - o)); auto; unfold zlen in *; lia. }
  assert (L' : load m' (o' + ((zlen xs + 1) / 2 + zlen (pvalues xs))) (length (strs (map report (params ps)) ns args))
    = strs (map report (params ps)) ns args).
  { rewrite (moved_load (cs_mem c) o m' o' (cs_out c - o)); auto; [|lia|unfold zlen in *; lia].
    rewrite Z.add_assoc. exact LS. }
  rewrite S3 in *.
  pose proof (pvals_wf (map report (params ps)) args Hw) as Wx. fold xs in Wx.
  destruct HB as (_ & _ & _ & _ & _ & HN & _).
  pose proof (nibbler_init_at m' o' xs Wx ltac:(lia) B') as NI.
  unfold print_message. rewrite NN, <- PC. rewrite NF.
  replace (Z.to_nat (zlen (mc_frags mc))) with (length (mc_frags mc)) by (unfold zlen; lia). rewrite firstn_all.
  set (nb := nibbler_init m' o' (zlen xs)) in *.
  assert (EE : nb_end nb = o' + ((zlen xs + 1) / 2 + zlen (pvalues xs))).
  { destruct NI as (_ & _ & E). rewrite E. subst nb. unfold nibbler_init. cbn [nb_cur]. lia. }
  subst ps.
  destruct (print_groups conv gs (mc_frags mc) args text m' lim (Pst [] [] nb (nb_end nb)) None DG Hok HA HR)
    as (s' & l & pv & P & X & U & V & W & Z'); cbn [ps_nb ps_str ps_text ps_pushed app] in *.
  - exact NI.
  - rewrite EE. exact L'.
  - rewrite EE. lia.
  - rewrite P. exists (ps_pushed s'). rewrite X, Z', EE. cbn [app]. split; [f_equal; f_equal; lia|].
    exists l. rewrite U. split; assumption.
Qed.

Theorem C09_message_partial : forall conv ps args text,
  defined conv ps args text -> backend_ok ps -> Forall2 harmless (params ps) args ->
  printed conv (render ps) args text.
Proof.
  intros conv ps args text H1 H2 H3 m p id ts mout o file line level.
  destruct (message_delivered conv ps args text H1 H2 H3 m p id ts mout o file line level)
    as (nib & n & pts & mc & r & E1 & E2 & E3 & E4 & E5).
  exists nib, n, pts, mc, r. split; [exact E1|]. split; [exact E2|]. split; [exact E3|]. split; [exact E4|].
  intros m' o' lim Hm Hl. destruct (E5 m' o' lim Hm Hl) as (pushed & E & _). exists pushed. auto.
Qed.
Print Assumptions C09_message_partial.

(** A renderer to compute with: flags, width and precision, then the value. *)
Definition show (rc : rconv) : list Z :=
  rc_flags rc ++ match rc_width rc with Some n => [n] | None => [] end
  ++ match rc_prec rc with Some n => [n] | None => [] end
  ++ match rc_val rc with RInt v => [v] | RPtr v => [v] | RStr s => s | RWStr s => s | RFlt (F64 b) => b | RFlt (F32w b) => b | RFlt (F80 b) => b end.

(** The whole way, computed. *)
Definition journey (conv : rconv -> list Z) (fmt : list Z) (args : list arg) : option (list Z) :=
  match analyze fmt, createMicroCode fmt [] 0 0 with
  | Some (nib, _, pts), Some mc =>
    match log_record (fun _ => 0) 1000 0 0 pts args with
    | Some r =>
      let c := compress (map aty_of args) nib pts (lr_mem r) 1016 (fun _ => 0) 0 in
      option_map (fun x => fst (fst x)) (print_message conv mc (cs_mem c) 0 (cs_out c))
    | None => None
    end
  | _, _ => None
  end.

Lemma printed_journey : forall conv fmt args text, printed conv fmt args text -> journey conv fmt args = Some text.
Proof.
  intros conv fmt args text H.
  destruct (H (fun _ => 0) 1000 0 0 (fun _ => 0) 0 [] 0 0) as (nib & n & pts & mc & r & EA & EM & ER & _ & HM).
  unfold journey. rewrite EA, EM, ER.
  destruct (HM _ 0 _ (fun i _ => eq_refl) (Z.le_refl _)) as (pushed & E & _).
  cbv zeta in *. rewrite Z.add_0_l, Z.sub_0_r in E.
  change (1000 + 16) with 1016 in E. rewrite E. reflexivity.
Qed.

Ltac concrete := repeat match goal with
  | |- Forall _ [] => constructor
  | |- Forall _ (_ :: _) => constructor
  | |- wf_arg _ => unfold wf_arg
  | |- string_fits _ => unfold string_fits
  | |- up_to_nul _ <> None => vm_compute; discriminate
  | |- True => exact I
  | |- in_range _ _ => vm_compute; split; congruence
  | |- is_byte _ => unfold is_byte
  | |- wchar_ok _ => unfold wchar_ok
  | |- _ \/ _ => cbn [it_bytes length]; lia
  | |- _ /\ _ => split
  | |- _ <= _ => apply Z.leb_le; vm_compute; reflexivity
  | |- _ < _ => apply Z.ltb_lt; vm_compute; reflexivity
  | |- _ = _ => reflexivity
  end.

Example C09_instance :
  let ps := [Lit 60; Conv (Spec [45] WStar PrStar [] 115); Conv (Spec [] (WNum [53]) PrNone [] 100); Pct;
             Conv (Spec [] WNone PrNone (chars "hh") 117); Conv (Spec [] WNone PrNone (chars "l") 115);
             Conv (Spec [] WNone (PrNum [50]) [] 102); Lit 62] in
  let args := [AInt (Ity true 4) 7; AInt (Ity true 4) 2; AStr 50 [97; 98; 99; 0]; AInt (Ity true 4) (-3);
               AInt (Ity false 1) 200; AWStr 70 [8364; 66; 0]; AFlt [1; 2; 3; 4; 5; 6; 7; 8]] in
  let text := chars "<-" ++ [7; 2] ++ chars "ab" ++ [5; -3] ++ chars "%" ++ [200; 8364; 66; 2; 1; 2; 3; 4; 5; 6; 7; 8] ++ chars ">" in
  defined show ps args text /\ backend_ok ps /\ Forall2 harmless (params ps) args /\
  render ps = chars "<%-*.*s%5d%%%hhu%ls%.2f>" /\ journey show (render ps) args = Some text.
Proof.
  cbv zeta. split; [|split; [|split; [|split]]]; [| | |reflexivity|vm_compute; reflexivity].
  - unfold defined. concrete.
  - vm_compute. repeat split; congruence.
  - repeat constructor; cbn [harmless]; intros n E; vm_compute in E;
      apply (f_equal (fun o => match o with Some y => y | None => 0 end)) in E; subst n; discriminate.
Qed.

(** Four reasons why C09 fails as stated.  A negative width: printf left-justifies
    ("%*d" with -5, 7), the decompressor passes no width to fprintf. *)
Theorem C09_refuted_negative_width : ~ faithful.
Proof.
  intro H. specialize (H show [Conv (Spec [] WStar PrNone [] 100)] [AInt (Ity true 4) (-5); AInt (Ity true 4) 7] [45; 5; 7]).
  assert (D : defined show [Conv (Spec [] WStar PrNone [] 100)] [AInt (Ity true 4) (-5); AInt (Ity true 4) 7] [45; 5; 7]).
  { unfold defined. concrete. }
  apply H, printed_journey in D. vm_compute in D. discriminate D.
Qed.

(** A negative precision, as if none were given. *)
Theorem C09_refuted_negative_precision : ~ faithful.
Proof.
  intro H. specialize (H show [Conv (Spec [] WNone PrStar [] 115)] [AInt (Ity true 4) (-1); AStr 50 [97; 0]] [97]).
  assert (D : defined show [Conv (Spec [] WNone PrStar [] 115)] [AInt (Ity true 4) (-1); AStr 50 [97; 0]] [97]).
  { unfold defined. concrete. }
  apply H, printed_journey in D. vm_compute in D. discriminate D.
Qed.

(** [%s] with an unsigned char pointer, which printf accepts: the pointer is
    dropped and nothing is stored for the string. *)
Theorem C09_refuted_unsigned_char : ~ faithful.
Proof.
  intro H. specialize (H show [Conv (Spec [] WNone PrNone [] 115)] [APtr 1 50 [97; 0]] [97]).
  assert (D : defined show [Conv (Spec [] WNone PrNone [] 115)] [APtr 1 50 [97; 0]] [97]).
  { unfold defined. concrete. }
  apply H, printed_journey in D. vm_compute in D. discriminate D.
Qed.

(** The formats C08 fails on, here "%.f". *)
Theorem C09_refuted_empty_precision : ~ faithful.
Proof.
  intro H.
  specialize (H show [Conv (Spec [] WNone (PrNum []) [] 102)] [AFlt [1; 2; 3; 4; 5; 6; 7; 8]] [0; 1; 2; 3; 4; 5; 6; 7; 8]).
  assert (D : defined show [Conv (Spec [] WNone (PrNum []) [] 102)] [AFlt [1; 2; 3; 4; 5; 6; 7; 8]] [0; 1; 2; 3; 4; 5; 6; 7; 8]).
  { unfold defined. concrete. }
  apply H, printed_journey in D. vm_compute in D. discriminate D.
Qed.

Print Assumptions C09_refuted_negative_width.
Print Assumptions C09_refuted_negative_precision.
Print Assumptions C09_refuted_unsigned_char.
Print Assumptions C09_refuted_empty_precision.
