(** Decompressing a file of extents with an aggregation function. *)
From Verif Require Import Base BaseProofs Packer PackerProofs LogHeader LogHeaderProofs Chars Fmt FmtProofs MicroCode Args ArgsProofs Printf Decode DecodeProofs
  Encoder Wire EncoderProofs Decoder FileSpec DecoderProofs Ordered MetaDict MicroMem MemDecoder Prop_MetaDict Preproc GenCode PreFile Aggregate.
Ltac Zify.zify_post_hook ::= Z.div_mod_to_equations.

(** [body] is what the generated function [g] prints [text] for, with arguments
    that satisfy [P], wherever it lies. *)
Definition runs (conv : rconv -> list Z) (g : genfn) (body text : list Z) (P : list va -> Prop) : Prop :=
  forall m o lim, load m o (length body) = body -> o + zlen body <= lim ->
  exists vs, gen_unpack (gf_types g) m o lim = Some (vs, o + zlen body) /\ printf conv (gf_fmt g) vs = Some text /\ P vs.

Record gmsg := GMsg { g_w : wmsg; g_fn : genfn; g_text : list Z; g_passed : list va -> Prop }.

Definition gmsg_ok (conv : rconv -> list Z) (units : list (list stmt)) (f : gmsg) : Prop :=
  wm_ok (g_w f) /\ nth_error (fnArray units) (Z.to_nat (w_id (g_w f))) = Some (Some (g_fn f)) /\
  runs conv (g_fn f) (w_body (g_w f)) (g_text f) (g_passed f).

Definition gshown (filter : Z) (cp : checkpoint) (tid : Z) (f : gmsg) (ev : aevent) : Prop :=
  exists vs, g_passed f vs /\
    ev = AvMsg cp (DMsg (w_id (g_w f)) (w_ts (g_w f)) tid (gf_file (g_fn f)) (gf_line (g_fn f)) (gf_level (g_fn f)) (g_text f) [])
      (if filter =? w_id (g_w f) then Some (gf_fmt (g_fn f), vs) else None).

Inductive gitem := GPad (bs : list Z) | GExtent (tid : Z) (newPass : bool) (ms : list gmsg).

Definition gitem_bytes (it : gitem) : list Z :=
  match it with GPad bs => bs | GExtent tid np ms => extent_bytes tid np (map g_w ms) end.
Definition gfile (items : list gitem) : list Z := concat (map gitem_bytes items).

Definition gitem_ok (conv : rconv -> list Z) (units : list (list stmt)) (it : gitem) : Prop :=
  match it with
  | GPad bs => Forall (fun b => is_byte b /\ b mod 4 = 0) bs
  | GExtent tid np ms => 0 <= tid < 2 ^ 32 /\ zlen (gitem_bytes it) <= EXTENT_MAX /\ Forall (gmsg_ok conv units) ms
  end.

Fixpoint gmsgs (items : list gitem) : list (Z * gmsg) :=
  match items with
  | [] => []
  | GPad _ :: r => gmsgs r
  | GExtent tid _ ms :: r => map (fun f => (tid, f)) ms ++ gmsgs r
  end.

Definition gline (filter : Z) (cp : checkpoint) (x : Z * gmsg) (ev : aevent) : Prop := gshown filter cp (fst x) (snd x) ev.

Lemma ag_next_spec : forall lim conv units filter st b tid f r,
  at_msgs b tid (map g_w (f :: r)) -> Forall (gmsg_ok conv units) (f :: r) ->
  exists b' dm c, ag_decompressNext lim conv units filter true st b = Some (b', Some (dm, c)) /\
    at_msgs b' tid (map g_w r) /\ (forall cp, gshown filter cp tid f (AvMsg cp dm c)) /\
    (bf_more b' = true -> bf_pos b + 3 <= bf_pos b' <= bf_end b' /\ bf_end b' = bf_end b).
Proof.
  intros lim conv units filter st b tid f r (A0 & A1 & A2 & A3 & A4 & A5 & A6) Hf. cbn [map] in *.
  inversion Hf as [|? ? (Hw & Hn & HP) Hr]; subst.
  apply load_split in A4. destruct A4 as [L1 L2]. rewrite zlen_app in A5.
  set (B := w_body (g_w f)) in *. set (R := wmsgs_bytes (w_ts (g_w f)) (map g_w r)) in *.
  pose proof (zlen_nonneg _ B). pose proof (zlen_nonneg _ R).
  destruct (HP (bf_mem b) (bf_pos b) STORAGE L1 ltac:(lia)) as (vs & U & P & PV).
  unfold ag_decompressNext. replace (bf_end b <? bf_pos b) with false by lia. rewrite A1. cbn [orb negb].
  rewrite orb_true_r, A2, Hn. unfold gen_run. rewrite U, P. cbv zeta. cbn [andb].
  assert (W : Forall wm_ok (map g_w r)).
  { apply Forall_map. eapply Forall_impl; [|exact Hr]. intros g (G1 & _). exact G1. }
  pose proof (next_header (bf_mem b) (bf_pos b + zlen B) (w_ts (g_w f)) (map g_w r) W L2) as NH.
  destruct r as [|g r]; cbn [map] in *.
  - replace (zlen R) with 0 in * by (unfold R; rewrite NH; reflexivity).
    replace (bf_end b <=? bf_pos b + zlen B) with true by lia.
    eexists _, _, _. split; [reflexivity|]. splits; auto.
    + split; reflexivity.
    + intro cp. exists vs. split; [exact PV|]. rewrite A3. reflexivity.
    + cbn [bf_more]. discriminate.
  - destruct NH as (pos' & DH & L6 & E6 & P6). fold R in E6.
    match type of L6 with load _ _ (length ?x) = _ => pose proof (zlen_nonneg _ x) end.
    replace (bf_end b <=? bf_pos b + zlen B) with false by lia.
    rewrite A3. rewrite DH. eexists _, _, _. split; [reflexivity|]. splits; auto.
    + split; [reflexivity|]. cbn [bf_more bf_id bf_ts bf_mem bf_pos bf_end]. splits; auto; lia.
    + intro cp. exists vs. split; [exact PV|]. reflexivity.
    + cbn [bf_more bf_pos bf_end]. lia.
Qed.

Lemma ag_drain_spec : forall lim conv units filter st cp tid ms b fuel,
  at_msgs b tid (map g_w ms) -> Forall (gmsg_ok conv units) ms ->
  (ms <> [] -> bf_end b - bf_pos b + 1 < Z.of_nat fuel) -> (0 < fuel)%nat ->
  exists b' evs, ag_drain lim conv units filter true fuel cp st b = Some (b', evs) /\
    Forall2 (gshown filter cp tid) ms evs /\ bf_more b' = false /\ amsgs_in evs = zlen ms.
Proof.
  intros lim conv units filter st cp tid. induction ms as [|f ms IH]; intros b fuel A Hf Hfu H0; (destruct fuel as [|fuel]; [lia|]);
    cbn [ag_drain].
  - destruct A as [_ A]. cbn [map] in A. rewrite A. exists b, []. splits; reflexivity || auto.
  - destruct (ag_next_spec lim conv units filter st b tid f ms A Hf) as (b' & dm & c & E & A' & LN & PM).
    assert (BB : 0 <= bf_end b - bf_pos b).
    { destruct A as (_ & _ & _ & _ & _ & A5 & _). match type of A5 with _ = _ + zlen ?x => pose proof (zlen_nonneg _ x) end. lia. }
    destruct A as (_ & A1 & _). rewrite A1, E.
    specialize (Hfu ltac:(discriminate)).
    inversion Hf as [|? ? _ Hms]; subst.
    destruct (IH b' fuel A' Hms) as (b2 & evs & DR & M1 & M2 & M3).
    + intro Hne. destruct ms as [|g ms]; [congruence|]. destruct A' as (_ & A2 & _). destruct (PM A2). lia.
    + lia.
    + rewrite DR. exists b2, (AvMsg cp dm c :: evs). splits; auto.
      unfold amsgs_in in *. cbn [List.filter]. rewrite !zlen_cons. lia.
Qed.

Fixpoint gdrop (items : list gitem) : list gitem :=
  match items with
  | GPad _ :: r => gdrop r
  | _ => items
  end.

Lemma gdrop_facts : forall conv units items, Forall (gitem_ok conv units) items ->
  Forall (gitem_ok conv units) (gdrop items) /\ (length (gdrop items) <= length items)%nat /\
  (length (gfile (gdrop items)) <= length (gfile items))%nat /\ gmsgs (gdrop items) = gmsgs items.
Proof.
  intros conv units items. induction items as [|[bs|tid np ms] items IH]; intros H; cbn [gdrop gmsgs]; try (splits; auto; lia).
  inversion H; subst. destruct (IH ltac:(auto)) as (A & B & C & E). splits; auto.
  - cbn [length]. lia.
  - unfold gfile in *. cbn [map concat]. rewrite app_length. lia.
Qed.

Lemma gskip : forall conv units items fuel, Forall (gitem_ok conv units) items -> (length (gfile items) < fuel)%nat ->
  skip_padding fuel (File (gfile items) false) =
  File (gfile (gdrop items)) (match gfile (gdrop items) with [] => true | _ => false end).
Proof.
  intros conv units. induction items as [|[bs|tid np ms] items IH]; intros fuel H Hf; (destruct fuel as [|fuel]; [lia|]).
  - cbn [gdrop gfile map concat skip_padding f_eof]. unfold peekEntryType. cbn [f_rest].
    change (ET_INVALID =? ET_INVALID) with true. cbv iota. unfold fgetc. cbn [f_rest]. destruct fuel; reflexivity.
  - inversion H as [|? ? Hb Hi]; subst. cbn [gitem_ok] in Hb. cbn [gdrop].
    unfold gfile in *. cbn [map concat gitem_bytes] in *. rewrite app_length in Hf.
    destruct (skip_bytes bs (S fuel) (concat (map gitem_bytes items)) Hb ltac:(lia)) as (fuel' & F1 & F2).
    rewrite F2. apply IH; auto. lia.
  - inversion H as [|? ? Hx Hi]; subst. cbn [gitem_ok] in Hx. destruct Hx as (Ht & _). cbn [gdrop]. unfold gfile. cbn [map concat gitem_bytes].
    destruct (extent_head tid np (map g_w ms) Ht) as (b & r & E & T). rewrite E. cbn [app].
    cbn [skip_padding f_eof]. unfold peekEntryType. cbn [f_rest]. rewrite T. reflexivity.
Qed.

Lemma gmsgs_wm : forall conv units ms, Forall (gmsg_ok conv units) ms -> Forall wm_ok (map g_w ms).
Proof. intros conv units ms H. apply Forall_map. eapply Forall_impl; [|exact H]. intros f (A & _). exact A. Qed.

Lemma gshown_lines : forall filter cp tid ms evs, Forall2 (gshown filter cp tid) ms evs ->
  Forall2 (gline filter cp) (map (fun f => (tid, f)) ms) evs.
Proof. intros filter cp tid ms evs H. induction H; cbn [map]; constructor; auto. Qed.

Lemma ag_loop_spec : forall lim conv units filter st n items, (length items <= n)%nat -> forall cp op pr bfm fr b fuel,
  Forall (gitem_ok conv units) items -> (length (gfile items) + 1 < fuel)%nat ->
  exists d' b' evs,
    ag_loop lim conv units filter true fuel (MDecoder op (File (gfile items) false) pr bfm true cp fr st) b = Some (d', b', evs) /\
    Forall2 (gline filter cp) (gmsgs items) evs /\ md_printed d' = pr + zlen (gmsgs items) /\
    md_good d' = true /\ md_open d' = op /\ md_cp d' = cp /\ f_eof (md_file d') = true.
Proof.
  intros lim conv units filter st. induction n as [|n IH]; intros items Hn cp op pr bfm fr b fuel Hi Hf.
  - destruct items; [|cbn [length] in Hn; lia]. cbn [gfile map concat gmsgs] in *. rewrite zlen_nil, Z.add_0_r.
    destruct fuel as [|[|fuel]]; try (cbn [length] in Hf; lia). cbn [ag_loop md_file f_eof md_good negb orb md_printed md_cp md_st md_open md_bf md_free].
    cbn [peekEntryType f_rest]. change (ET_INVALID =? ET_BUFFER_EXTENT) with false. change (ET_INVALID =? ET_CHECKPOINT) with false.
    change (ET_INVALID =? ET_LOG_MSGS_OR_DIC) with false. cbn [skip_padding f_eof ag_loop md_file orb].
    eexists _, _, _. splits; reflexivity || constructor.
  - destruct items as [|it items]; [apply (IH []); auto; cbn [length]; lia|].
    cbn [length] in Hn. inversion Hi as [|? ? Hit Hi']; subst.
    destruct it as [bs|tid np ms]; cbn [gmsgs].
    + destruct bs as [|p bs]; [apply (IH items); auto; lia|].
      destruct fuel as [|fuel]; [lia|].
      assert (EC : gfile (GPad (p :: bs) :: items) = p :: bs ++ gfile items) by reflexivity.
      pose proof (gskip conv units (GPad (p :: bs) :: items) (S (length (p :: bs ++ gfile items))) Hi) as SK. rewrite EC in *.
      specialize (SK ltac:(lia)). cbn [gdrop] in SK.
      cbn [gitem_ok] in Hit. inversion Hit as [|? ? [P1 P2] Hbs]; subst.
      cbn [ag_loop md_file f_eof md_good negb orb md_printed md_cp md_st md_open md_bf md_free].
      unfold peekEntryType at 1. cbn [f_rest]. rewrite (pad_type p P1 P2).
      change (ET_INVALID =? ET_BUFFER_EXTENT) with false. change (ET_INVALID =? ET_CHECKPOINT) with false.
      change (ET_INVALID =? ET_LOG_MSGS_OR_DIC) with false. cbv iota. rewrite SK.
      destruct (gdrop_facts conv units items Hi') as (D1 & D2 & D3 & D4). rewrite <- D4.
      cbn [length] in Hf. rewrite app_length in Hf.
      destruct (gfile (gdrop items)) as [|x xs] eqn:EP.
      * destruct fuel as [|fuel]; [lia|]. cbn [ag_loop md_file f_eof orb].
        assert (PE : gmsgs (gdrop items) = []).
        { clear - EP. induction items as [|[bs|tid np ms] items IH]; cbn [gdrop] in *; auto.
          unfold gfile in EP. cbn [map concat gitem_bytes] in EP. unfold extent_bytes in EP. discriminate EP. }
        rewrite PE. eexists _, _, _. splits; try reflexivity; [constructor|]. cbn [md_printed]. rewrite zlen_nil. lia.
      * rewrite <- EP. apply IH; auto; [lia|]. rewrite EP in *. cbn [length] in *. lia.
    + destruct fuel as [|fuel]; [lia|]. destruct Hit as (T1 & T2 & T3). cbn [gitem_bytes] in T2.
      assert (EC : gfile (GExtent tid np ms :: items) = extent_bytes tid np (map g_w ms) ++ gfile items) by reflexivity.
      rewrite EC in *. rewrite app_length in Hf.
      destruct (extent_head tid np (map g_w ms) T1) as (b0 & r0 & E0 & T0).
      destruct (readBufferExtent_spec tid np (map g_w ms) (gfile items) b T1 (gmsgs_wm _ _ _ T3) T2) as (b' & RE & A).
      cbn [ag_loop md_file f_eof md_good negb orb md_printed md_cp md_st md_open md_bf md_free].
      assert (PK : peekEntryType (File (extent_bytes tid np (map g_w ms) ++ gfile items) false) =
        (ET_BUFFER_EXTENT, File (extent_bytes tid np (map g_w ms) ++ gfile items) false)).
      { rewrite E0. unfold peekEntryType. cbn [f_rest app]. now rewrite T0. }
      rewrite PK. change (ET_BUFFER_EXTENT =? ET_BUFFER_EXTENT) with true. cbv iota. rewrite RE. cbv iota.
      destruct (ag_drain_spec lim conv units filter st cp tid ms b' (S (S (Z.to_nat (bf_end b' - bf_pos b')))) A T3) as (b2 & evs & DR & E1 & E2 & E3).
      { intros _. lia. } { lia. }
      rewrite DR.
      assert (L0 : (0 < length (extent_bytes tid np (map g_w ms)))%nat) by (rewrite E0; cbn [length]; lia).
      destruct (IH items ltac:(lia) cp op (pr + amsgs_in evs) bfm fr b2 fuel Hi' ltac:(lia)) as (d' & b3 & evs' & EL & F1 & F2 & F3 & F4 & F5 & F6).
      rewrite EL. eexists _, _, _. splits; try reflexivity; auto.
      * apply Forall2_app; [now apply gshown_lines|exact F1].
      * rewrite F2, zlen_app, zlen_map. lia.
Qed.

(** Opening the file and decompressing it. *)
Lemma ag_decompress : forall lim conv units filter m0 junk cp D items, execution_ok junk cp D -> zlen (metas_bytes D) <= lim ->
  Forall (gitem_ok conv units) items ->
  exists d d' evs, md_open_file lim (new_mdecoder m0) (execution_bytes junk cp D ++ gfile items) = Some (d, true) /\
    ag_internalDecompressUnordered lim conv units filter true d = Some (d', evs, true) /\ Forall2 (gline filter cp) (gmsgs items) evs /\
    md_printed d' = zlen (gmsgs items).
Proof.
  intros lim conv units filter m0 junk cp D items HX HL Hi.
  assert (H0 : holds lim (Metas m0 0 [] []) []) by (unfold holds, uses; cbn; auto).
  destruct (C41_partial lim junk (Checkpoint 0 0 (repeat 0 8)) cp [] D (Metas m0 0 [] []) (gfile items) H0 HX) as (st & D' & R & DD & (US & _)).
  { change (zlen (metas_bytes [])) with 0. lia. }
  { now left. }
  destruct (ag_loop_spec lim conv units filter st (length items) items (Nat.le_refl _) cp true 0 new_bfrag [] new_bfrag (S (S (length (gfile items)))) Hi ltac:(lia))
    as (d' & b' & evs & EL & F1 & F2 & F3 & _).
  unfold md_open_file, new_mdecoder. cbn [md_cp md_st md_bf md_free]. rewrite R. eexists _, _, evs. split; [reflexivity|].
  unfold ag_internalDecompressUnordered. cbn [md_open negb md_free md_file md_printed md_bf md_good md_cp md_st f_rest allocateBufferFragment].
  rewrite EL, F3. split; [reflexivity|]. split; [exact F1|]. cbn [md_printed]. rewrite F2. lia.
Qed.
