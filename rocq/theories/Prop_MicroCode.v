(** C08: the decompressor's description of a format string. *)
From Verif Require Import Base BaseProofs Chars Fmt FmtProofs FmtLax FrontFmt FrontFmtProofs
  Regex MicroCode MicroCodeProofs Prop_FrontFmt.

(** C08 as it should hold: whatever compiles gets a description with as many
    packed slots as the logging side emits, whose fragments concatenate to the
    format. *)
Definition agrees : Prop := forall s nib n pts file line level,
  analyze s = Some (nib, n, pts) ->
  exists mc, createMicroCode s file line level = Some mc /\
    mc_numNibbles mc = nib /\ concat (map fr_text (mc_frags mc)) = s.

(** An empty precision: the decompressor sees no specifier at all. *)
Theorem C08_refuted_empty_precision : ~ agrees.
Proof.
  intro H. destruct (H (chars "%.f") 1 1%nat [PT_NON_STRING] [] 0 0) as (mc & E & N & _).
  - vm_compute. reflexivity.
  - vm_compute in E. apply (f_equal (fun o => match o with Some m => mc_numNibbles m | None => 0 end)) in E.
    rewrite N in E. discriminate E.
Qed.

(** A backslash in front of a specifier hides it from the decompressor. *)
Theorem C08_refuted_backslash : ~ agrees.
Proof.
  intro H. destruct (H (chars "C:\%d%d") 2 2%nat [PT_NON_STRING; PT_NON_STRING] [] 0 0)
    as (mc & E & N & _); [vm_compute; reflexivity|].
  vm_compute in E. apply (f_equal (fun o => match o with Some m => mc_numNibbles m | None => 0 end)) in E.
  rewrite N in E. discriminate E.
Qed.

(** One fragment then holds two specifiers but takes one argument. *)
Example C08_backslash_fragment : createMicroCode (chars "C:\%s%d") [] 0 0 =
  Some (MicroCode 1 1 0 0 [] [Frag int_t false false (chars "C:\%s%d")]).
Proof. vm_compute. reflexivity. Qed.

(** Length modifiers the compile-time check lets through make the decompressor
    give up on the entry. *)
Theorem C08_refuted_length : ~ agrees.
Proof.
  intro H. destruct (H (chars "%Ld") 1 1%nat [PT_NON_STRING] [] 0 0) as (mc & E & _).
  - vm_compute. reflexivity.
  - vm_compute in E. discriminate E.
Qed.

(** From 256 specifiers on the uint8_t counters wrap. *)
Definition many (n : nat) : list piece := repeat (Conv (Spec [] WNone PrNone [] 100)) n.

Lemma many_facts : forall n, fmt_ok (many n) = true /\ prec_int (many n) = true /\
  esc_ok (many n) = true /\ natural (many n) = true /\ nonstrings (many n) = Z.of_nat n /\
  params (many n) = repeat KOther n.
Proof.
  induction n as [|n (H1 & H2 & H3 & H4 & H5 & H6)]; [repeat split|].
  assert (P : params (many (S n)) = repeat KOther (S n)).
  { change (params (many (S n))) with ([KOther] ++ params (many n)). rewrite H6. reflexivity. }
  repeat split; try assumption.
  unfold nonstrings in *. rewrite P, H6 in *. cbn [repeat filter is_nonstring].
  unfold zlen in *. cbn [length]. lia.
Qed.

Lemma many_nibbles : forall n mc, createMicroCode (render (many n)) [] 0 0 = Some mc ->
  mc_numNibbles mc = to_u 8 (Z.of_nat n).
Proof.
  intros n mc E. destruct (many_facts n) as (H1 & H2 & H3 & H4 & H5 & H6).
  unfold createMicroCode in E. rewrite (mc_scan_render (length (many n))) in E by auto.
  cbn [sc_frags sc_nib] in E. rewrite H5, Z.add_0_l in E.
  match type of E with match ?l with _ => _ end = _ => destruct l end;
    injection E as E; rewrite <- E; reflexivity.
Qed.

Lemma agrees_many : forall n, agrees -> to_u 8 (Z.of_nat n) = Z.of_nat n.
Proof.
  intros n H. destruct (many_facts n) as (H1 & H2 & H3 & H4 & H5 & H6).
  destruct (H _ _ _ _ [] 0 0 (C07_analysis_exact _ H1 H2)) as (mc & E & N & _).
  fold (nonstrings (many n)) in N. rewrite H5 in N. rewrite <- N at 2.
  symmetry. now apply many_nibbles.
Qed.

Theorem C08_refuted_many : ~ agrees.
Proof. intro H. discriminate (agrees_many 256 H). Qed.

(** C08 for printf formats in which no backslash precedes a '%', no precision is
    a bare '.', and the counters (uint8_t) and lengths (uint16_t) fit.  Missing
    with respect to [agrees]: exactly those exclusions. *)
Definition backend_ok (ps : list piece) : Prop :=
  fmt_ok ps = true /\ prec_int ps = true /\ esc_ok ps = true /\ natural ps = true /\
  zlen (convs ps) <= 255 /\ nonstrings ps <= 255 /\ zlen (render ps) + 1 <= 65535.

Theorem C08_agreement_partial : forall ps file line level, backend_ok ps ->
  exists mc gs nib n pts,
    analyze (render ps) = Some (nib, n, pts) /\
    createMicroCode (render ps) file line level = Some mc /\
    mc_numNibbles mc = nib /\
    (* the fragments cut the format into parts with one specifier each *)
    concat gs = ps /\ Forall2 describes gs (mc_frags mc) /\
    mc_numFrags mc = zlen (mc_frags mc) /\ mc_numFrags mc = Z.max 1 (zlen (convs ps)) /\
    concat (map fr_text (mc_frags mc)) = render ps /\
    mc_level mc = level /\ mc_line mc = line /\ mc_file mc = file.
Proof.
  intros ps file line level (Hok & Hpi & He & Hn & Hc & Hs & _).
  destruct (createMicroCode_render ps file line level Hok He Hn Hc Hs)
    as (mc & gs & E & N & Hg & HF & Hr).
  exists mc, gs, (nonstrings ps), (length (params ps)), (map report (params ps)).
  split; [apply C07_analysis_exact; auto|].
  split; [exact E|]. split; [exact N|]. split; [exact Hg|]. split; [exact HF|].
  repeat split; try tauto.
  rewrite <- Hg. clear - HF. induction HF as [|g f gs fs (Ht & _) HF IH]; [reflexivity|].
  cbn [map concat]. rewrite render_app, IH, Ht. reflexivity.
Qed.

Print Assumptions C08_refuted_empty_precision.
Print Assumptions C08_refuted_backslash.
Print Assumptions C08_refuted_length.
Print Assumptions C08_refuted_many.
Print Assumptions C08_agreement_partial.

Example C08_instance :
  let ps := map Lit (chars "a\n") ++ [Pct; Conv (Spec [45] WStar PrStar [] 115); Lit 32;
             Conv (Spec [] (WNum [53]) (PrNum [51]) [] 102); Pct;
             Conv (Spec [] WNone PrNone (chars "hh") 117)] ++ map Lit (chars " end") in
  backend_ok ps /\ render ps = chars "a\n%%%-*.*s %5.3f%%%hhu end" /\
  createMicroCode (render ps) (chars "f.cc") 7 2 =
  Some (MicroCode 4 3 2 7 (chars "f.cc")
    [Frag const_char_ptr_t true true (chars "a\n%%%-*.*s"); Frag double_t false false (chars " %5.3f");
     Frag unsigned_char_t false false (chars "%%%hhu end")]).
Proof. vm_compute. repeat split; auto; discriminate. Qed.
