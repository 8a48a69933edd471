(** Decompressing the log of a program the preprocessor handled: a checkpoint with
    the dictionary, then extents and padding. *)
From Verif Require Import Base BaseProofs Packer PackerProofs LogHeader LogHeaderProofs Chars Fmt FmtProofs MicroCode Args ArgsProofs Printf Decode DecodeProofs
  Encoder Wire EncoderProofs Decoder FileSpec DecoderProofs MetaDict MicroMem MemDecoder Prop_MetaDict.
Ltac Zify.zify_post_hook ::= Z.div_mod_to_equations.

(** [body] is printed as [text] by the micro code [mc], wherever it lies. *)
Definition prints (conv : rconv -> list Z) (mc : microcode) (body text : list Z) : Prop :=
  forall m o lim, load m o (length body) = body -> o + zlen body <= lim ->
  exists pushed, print_message conv mc m o lim = Some (text, pushed, o + zlen body).

Record pmsg := PMsg { pm_w : wmsg; pm_mc : microcode; pm_text : list Z }.

Definition pmsg_ok (conv : rconv -> list Z) (mcs : list microcode) (f : pmsg) : Prop :=
  wm_ok (pm_w f) /\ nth_error mcs (Z.to_nat (w_id (pm_w f))) = Some (pm_mc f) /\ prints conv (pm_mc f) (w_body (pm_w f)) (pm_text f).

Definition pshow (cp : checkpoint) (tid : Z) (f : pmsg) : oline :=
  LMsg (Shown cp (w_id (pm_w f)) (w_ts (pm_w f)) tid (mc_file (pm_mc f)) (mc_line (pm_mc f)) (mc_level (pm_mc f)) (pm_text f)).

Inductive pitem :=
| PPad (bs : list Z)
| PExtent (tid : Z) (newPass : bool) (ms : list pmsg).

Definition pitem_bytes (it : pitem) : list Z :=
  match it with PPad bs => bs | PExtent tid np ms => extent_bytes tid np (map pm_w ms) end.
Definition pfile (items : list pitem) : list Z := concat (map pitem_bytes items).

Definition pitem_ok (conv : rconv -> list Z) (mcs : list microcode) (it : pitem) : Prop :=
  match it with
  | PPad bs => Forall (fun b => is_byte b /\ b mod 4 = 0) bs
  | PExtent tid np ms => 0 <= tid < 2 ^ 32 /\ zlen (pitem_bytes it) <= EXTENT_MAX /\ Forall (pmsg_ok conv mcs) ms
  end.

Fixpoint plines (cp : checkpoint) (items : list pitem) : list oline :=
  match items with
  | [] => []
  | PPad _ :: r => plines cp r
  | PExtent tid _ ms :: r => map (pshow cp tid) ms ++ plines cp r
  end.

Lemma uses_at : forall lim st D i mc, uses lim st D -> nth_error (map fst D) (Z.to_nat i) = Some mc -> metadata_of lim st i = Some mc.
Proof.
  intros lim st D i mc [U _] H. unfold metadata_of.
  assert (Q : nth_error (map (microcode_at lim (ms_mem st)) (ms_at st)) (Z.to_nat i) = Some (Some mc)).
  { rewrite U. now rewrite (map_nth_error Some _ _ H). }
  destruct (nth_error (ms_at st) (Z.to_nat i)) as [p|] eqn:E.
  - rewrite (map_nth_error _ _ _ E) in Q. congruence.
  - exfalso. apply nth_error_None in E. assert (nth_error (map (microcode_at lim (ms_mem st)) (ms_at st)) (Z.to_nat i) = None)
      by (apply nth_error_None; rewrite map_length; exact E). congruence.
Qed.

Lemma m_next_spec : forall lim conv st D b tid f r, uses lim st D ->
  at_msgs b tid (map pm_w (f :: r)) -> Forall (pmsg_ok conv (map fst D)) (f :: r) ->
  exists b' dm, m_decompressNext lim conv st b = Some (b', Some dm) /\
    at_msgs b' tid (map pm_w r) /\ (forall cp, line_of (EvMsg cp dm) = pshow cp tid f) /\
    (bf_more b' = true -> bf_pos b + 3 <= bf_pos b' <= bf_end b' /\ bf_end b' = bf_end b).
Proof.
  intros lim conv st D b tid f r HU (A0 & A1 & A2 & A3 & A4 & A5 & A6) Hf. cbn [map] in *.
  inversion Hf as [|? ? (Hw & Hn & HP) Hr]; subst.
  apply load_split in A4. destruct A4 as [L1 L2]. rewrite zlen_app in A5.
  set (B := w_body (pm_w f)) in *. set (R := wmsgs_bytes (w_ts (pm_w f)) (map pm_w r)) in *.
  pose proof (zlen_nonneg _ B). pose proof (zlen_nonneg _ R).
  destruct (HP (bf_mem b) (bf_pos b) STORAGE L1 ltac:(lia)) as (pushed & P).
  unfold m_decompressNext. replace (bf_end b <? bf_pos b) with false by lia. rewrite A1. cbn [orb negb].
  rewrite A2, (uses_at lim st D _ _ HU Hn), P. cbv zeta.
  assert (W : Forall wm_ok (map pm_w r)).
  { apply Forall_forall. intros w Hw'. apply in_map_iff in Hw'. destruct Hw' as (g & <- & Hg).
    rewrite Forall_forall in Hr. destruct (Hr g Hg) as (G1 & _). exact G1. }
  pose proof (next_header (bf_mem b) (bf_pos b + zlen B) (w_ts (pm_w f)) (map pm_w r) W L2) as NH.
  destruct r as [|g r]; cbn [map] in *.
  - replace (zlen R) with 0 in * by (unfold R; rewrite NH; reflexivity).
    replace (bf_end b <=? bf_pos b + zlen B) with true by lia.
    eexists _, _. split; [reflexivity|]. splits; auto.
    + split; reflexivity.
    + intro cp. unfold line_of, pshow. cbn [dm_id dm_ts dm_tid dm_file dm_line dm_level dm_text]. rewrite A3. reflexivity.
    + cbn [bf_more]. discriminate.
  - destruct NH as (pos' & DH & L6 & E6 & P6). fold R in E6.
    match type of L6 with load _ _ (length ?x) = _ => pose proof (zlen_nonneg _ x) end.
    replace (bf_end b <=? bf_pos b + zlen B) with false by lia.
    rewrite A3. rewrite DH. eexists _, _. split; [reflexivity|]. splits; auto.
    + split; [reflexivity|]. cbn [bf_more bf_id bf_ts bf_mem bf_pos bf_end]. splits; auto; lia.
    + cbn [bf_more bf_pos bf_end]. lia.
Qed.

Lemma m_drain_spec : forall lim conv st D cp tid, uses lim st D -> forall ms b fuel,
  at_msgs b tid (map pm_w ms) -> Forall (pmsg_ok conv (map fst D)) ms ->
  (ms <> [] -> bf_end b - bf_pos b + 1 < Z.of_nat fuel) -> (0 < fuel)%nat ->
  exists b' evs, m_drain_fragment lim conv fuel cp st b = Some (b', evs) /\
    map line_of evs = map (pshow cp tid) ms /\ bf_more b' = false /\ msgs_in evs = zlen ms.
Proof.
  intros lim conv st D cp tid HU. induction ms as [|f ms IH]; intros b fuel A Hf Hfu H0; (destruct fuel as [|fuel]; [lia|]);
    cbn [m_drain_fragment].
  - destruct A as [_ A]. cbn [map] in A. rewrite A. exists b, []. splits; reflexivity || auto.
  - destruct (m_next_spec lim conv st D b tid f ms HU A Hf) as (b' & dm & E & A' & LN & PM).
    assert (BB : 0 <= bf_end b - bf_pos b).
    { destruct A as (_ & _ & _ & _ & _ & A5 & _). match type of A5 with _ = _ + zlen ?x => pose proof (zlen_nonneg _ x) end. lia. }
    destruct A as (_ & A1 & _). rewrite A1, E.
    specialize (Hfu ltac:(discriminate)).
    inversion Hf as [|? ? _ Hms]; subst.
    destruct (IH b' fuel A' Hms) as (b2 & evs & DR & M1 & M2 & M3).
    + intro Hne. destruct ms as [|g ms]; [congruence|]. destruct A' as (_ & A2 & _). destruct (PM A2). lia.
    + lia.
    + rewrite DR. exists b2, (EvMsg cp dm :: evs). splits; auto.
      * cbn [map]. rewrite M1. f_equal. apply LN.
      * unfold msgs_in in *. cbn [filter]. rewrite !zlen_cons. lia.
Qed.

Fixpoint pdrop (items : list pitem) : list pitem :=
  match items with
  | PPad _ :: r => pdrop r
  | _ => items
  end.

Lemma pdrop_facts : forall conv mcs items, Forall (pitem_ok conv mcs) items ->
  Forall (pitem_ok conv mcs) (pdrop items) /\ (length (pdrop items) <= length items)%nat /\
  (length (pfile (pdrop items)) <= length (pfile items))%nat /\ (forall cp, plines cp (pdrop items) = plines cp items).
Proof.
  intros conv mcs items. induction items as [|[bs|tid np ms] items IH]; intros H; cbn [pdrop plines]; try (splits; auto; lia).
  inversion H; subst. destruct (IH ltac:(auto)) as (A & B & C & E). splits; auto.
  - cbn [length]. lia.
  - unfold pfile in *. cbn [map concat]. rewrite app_length. lia.
Qed.

Lemma extent_head : forall tid np ws, 0 <= tid < 2 ^ 32 -> exists b r, extent_bytes tid np ws = b :: r /\ entryType b = ET_BUFFER_EXTENT.
Proof.
  intros tid np ws Ht. unfold extent_bytes. eexists _, _. split; [reflexivity|]. pose proof (num_bytes_u32 tid Ht).
  unfold entryType, ET_BUFFER_EXTENT. destruct np, (tid <? 16) eqn:E; bf.
Qed.

(** What is left of an extent that was being written: nothing, or some of its first bytes. *)
Definition ptorn (tail : list Z) : Prop :=
  tail = [] \/ exists tid np ws k, 0 <= tid < 2 ^ 32 /\ zlen (extent_bytes tid np ws) <= EXTENT_MAX /\
    (0 < k < length (extent_bytes tid np ws))%nat /\ tail = firstn k (extent_bytes tid np ws).

Lemma ptorn_head : forall tail, ptorn tail -> tail = [] \/ exists b r, tail = b :: r /\ entryType b = ET_BUFFER_EXTENT.
Proof.
  intros tail [->|(tid & np & ws & k & Ht & _ & Hk & ->)]; [now left|right]. destruct (extent_head tid np ws Ht) as (b & r & E & T). rewrite E.
  destruct k as [|k]; [lia|]. cbn [firstn]. eauto.
Qed.

Lemma extent_torn : forall tail b, ptorn tail -> tail <> [] ->
  exists b', readBufferExtent (File tail false) b = Some (File [] true, b', false, false) /\ bf_more b' = false.
Proof.
  intros tail b [->|(tid & np & ws & k & Ht & Hz & Hk & ->)] HN; [contradiction HN; reflexivity|].
  rewrite extent_zlen in Hz. pose proof (tid_zlen tid Ht) as TZ.
  assert (LE : zlen (extent_bytes tid np ws) = 5 + zlen (tid_bytes tid) + zlen (wmsgs_bytes 0 ws)) by apply extent_zlen.
  pose proof (zlen_nonneg _ (wmsgs_bytes 0 ws)).
  set (len := 5 + zlen (tid_bytes tid) + zlen (wmsgs_bytes 0 ws)) in *.
  unfold EXTENT_MAX in Hz.
  set (hd := 2 + 4 * (if np then 1 else 0) + (if tid <? 16 then 8 + 16 * tid else 16 * num_bytes tid)).
  set (tail := tid_bytes tid ++ wmsgs_bytes 0 ws).
  assert (Zt : zlen tail = len - 5) by (subst tail len; rewrite zlen_app; lia).
  assert (EB : extent_bytes tid np ws = (hd :: le_bytes 4 len) ++ tail) by reflexivity.
  assert (Zh : zlen (hd :: le_bytes 4 len) = 5) by (rewrite zlen_cons, le_bytes_zlen; reflexivity).
  destruct (Nat.lt_ge_cases k 5) as [K|K].
  - assert (Z2 : zlen (firstn k (extent_bytes tid np ws)) < 5) by (unfold zlen; rewrite firstn_length; lia).
    unfold readBufferExtent. rewrite fread_short by auto. cbv zeta.
    replace (zlen (firstn k (extent_bytes tid np ws)) <? 5) with true by lia. rewrite orb_true_r. cbn [orb].
    eexists. split; reflexivity.
  - rewrite EB in *. rewrite firstn_app.
    assert (L5 : length (hd :: le_bytes 4 len) = 5%nat) by reflexivity.
    rewrite firstn_all2 by lia. rewrite L5. set (t := firstn (k - 5) tail).
    assert (Z3 : zlen t < len - 5).
    { subst t. unfold zlen. rewrite firstn_length. rewrite app_length, L5 in Hk. unfold zlen in Zt. lia. }
    unfold readBufferExtent. rewrite (fread_app 5) by auto. rewrite Zh.
    set (m1 := store (bf_mem b) 0 (hd :: le_bytes 4 len)).
    assert (L1 : load m1 0 (length (hd :: le_bytes 4 len)) = hd :: le_bytes 4 len) by apply load_store_same.
    destruct (load_one _ _ _ _ L1) as [M0 L4]. rewrite le_bytes_length in L4. change (0 + 1) with 1 in L4. cbv zeta.
    rewrite L4, le_val_le_bytes. rewrite (Z.mod_small len) by (change (256 ^ Z.of_nat 4) with (2 ^ 32); lia).
    assert (NB : 1 <= num_bytes tid <= 4) by (apply num_bytes_u32; auto).
    assert (B0 : bf_get hd 0 2 = 2) by (subst hd; destruct np, (tid <? 16) eqn:E; bf).
    unfold entryType. rewrite M0, B0. change (2 =? ET_BUFFER_EXTENT) with true. change (5 <? 5) with false.
    replace (STORAGE <? len) with false by (unfold STORAGE, STAGING_BUFFER_SIZE; lia). cbn [negb orb].
    replace (len <? 5) with false by lia.
    rewrite fread_short by lia. replace (5 + zlen t =? len) with false by lia. cbn [negb].
    eexists. split; reflexivity.
Qed.

Lemma pskip : forall conv mcs items tail fuel, Forall (pitem_ok conv mcs) items -> ptorn tail -> (length (pfile items ++ tail) < fuel)%nat ->
  skip_padding fuel (File (pfile items ++ tail) false) =
  File (pfile (pdrop items) ++ tail) (match pfile (pdrop items) ++ tail with [] => true | _ => false end).
Proof.
  intros conv mcs items tail. induction items as [|[bs|tid np ms] items IH]; intros fuel H HT Hf; (destruct fuel as [|fuel]; [lia|]).
  - cbn [pdrop pfile map concat app]. destruct (ptorn_head _ HT) as [->|(b & r & -> & T)].
    + cbn [skip_padding f_eof]. unfold peekEntryType. cbn [f_rest].
      change (ET_INVALID =? ET_INVALID) with true. cbv iota. unfold fgetc. cbn [f_rest]. destruct fuel; reflexivity.
    + cbn [skip_padding f_eof]. unfold peekEntryType. cbn [f_rest]. rewrite T. reflexivity.
  - inversion H as [|? ? Hb Hi]; subst. cbn [pitem_ok] in Hb. cbn [pdrop].
    unfold pfile in *. cbn [map concat pitem_bytes] in *. rewrite <- app_assoc in *. rewrite app_length in Hf.
    destruct (skip_bytes bs (S fuel) (concat (map pitem_bytes items) ++ tail) Hb ltac:(lia)) as (fuel' & F1 & F2).
    rewrite F2. apply IH; auto. lia.
  - inversion H as [|? ? Hx Hi]; subst. cbn [pitem_ok] in Hx. destruct Hx as (Ht & _). cbn [pdrop]. unfold pfile. cbn [map concat pitem_bytes].
    destruct (extent_head tid np (map pm_w ms) Ht) as (b & r & E & T). rewrite E. cbn [app].
    cbn [skip_padding f_eof]. unfold peekEntryType. cbn [f_rest]. rewrite T. reflexivity.
Qed.

Lemma pmsgs_wm : forall conv mcs ms, Forall (pmsg_ok conv mcs) ms -> Forall wm_ok (map pm_w ms).
Proof. intros conv mcs ms H. apply Forall_map. eapply Forall_impl; [|exact H]. intros f (A & _). exact A. Qed.

Lemma messages_pshow : forall cp tid ms, zlen (messages (map (pshow cp tid) ms)) = zlen ms.
Proof.
  induction ms as [|m ms IH]; [reflexivity|]. unfold messages in *. cbn [map concat pshow app]. rewrite !zlen_cons. lia.
Qed.

Lemma pre_loop : forall lim conv st D, uses lim st D -> forall n items, (length items <= n)%nat -> forall cp op pr bfm fr b tail fuel,
  Forall (pitem_ok conv (map fst D)) items -> ptorn tail -> (length (pfile items ++ tail) + 1 < fuel)%nat ->
  exists d' b' evs,
    m_unordered_loop lim conv fuel (MDecoder op (File (pfile items ++ tail) false) pr bfm true cp fr st) b = Some (d', b', evs) /\
    map line_of evs = plines cp items /\ md_printed d' = pr + zlen (messages (plines cp items)) /\
    md_good d' = true /\ md_open d' = op /\ md_cp d' = cp /\ f_eof (md_file d') = true.
Proof.
  intros lim conv st D HU. induction n as [|n IH]; intros items Hn cp op pr bfm fr b tail fuel Hi HT Hf.
  - destruct items; [|cbn [length] in Hn; lia]. cbn [pfile map concat plines app] in *.
    change (zlen (messages [])) with 0. rewrite Z.add_0_r.
    destruct tail as [|b0 r0].
    2:{ destruct (extent_torn (b0 :: r0) b HT ltac:(discriminate)) as (b' & RT & _).
        destruct (ptorn_head _ HT) as [E|(b1 & r1 & E & T)]; [discriminate E|]. injection E as <- <-.
        destruct fuel as [|[|fuel]]; try (cbn [length] in Hf; lia). cbn [m_unordered_loop md_file f_eof md_good negb orb md_printed md_cp md_st md_open md_bf md_free].
        unfold peekEntryType. cbn [f_rest]. rewrite T. change (ET_BUFFER_EXTENT =? ET_BUFFER_EXTENT) with true. cbv iota. rewrite RT. cbv iota.
        cbn [m_unordered_loop md_file f_eof orb]. eexists _, _, _. splits; reflexivity. }
    destruct fuel as [|[|fuel]]; try (cbn [length] in Hf; lia). cbn [m_unordered_loop md_file f_eof md_good negb orb md_printed md_cp md_st md_open md_bf md_free].
    cbn [peekEntryType f_rest]. change (ET_INVALID =? ET_BUFFER_EXTENT) with false. change (ET_INVALID =? ET_CHECKPOINT) with false.
    change (ET_INVALID =? ET_LOG_MSGS_OR_DIC) with false. cbn [skip_padding f_eof m_unordered_loop md_file orb].
    eexists _, _, _. splits; reflexivity.
  - destruct items as [|it items]; [apply (IH []); auto; cbn [length]; lia|].
    cbn [length] in Hn. inversion Hi as [|? ? Hit Hi']; subst.
    destruct it as [bs|tid np ms]; cbn [plines].
    + destruct bs as [|p bs]; [apply (IH items); auto; lia|].
      destruct fuel as [|fuel]; [lia|].
      assert (EC : pfile (PPad (p :: bs) :: items) = p :: bs ++ pfile items) by reflexivity.
      assert (EC2 : pfile (PPad (p :: bs) :: items) ++ tail = p :: bs ++ pfile items ++ tail) by (rewrite EC; cbn [app]; now rewrite <- app_assoc).
      pose proof (pskip conv (map fst D) (PPad (p :: bs) :: items) tail (S (length (p :: bs ++ pfile items ++ tail))) Hi HT) as SK. rewrite EC2 in *.
      specialize (SK ltac:(lia)). cbn [pdrop] in SK.
      cbn [pitem_ok] in Hit. inversion Hit as [|? ? [P1 P2] Hbs]; subst.
      cbn [m_unordered_loop md_file f_eof md_good negb orb md_printed md_cp md_st md_open md_bf md_free].
      unfold peekEntryType at 1. cbn [f_rest]. rewrite (pad_type p P1 P2).
      change (ET_INVALID =? ET_BUFFER_EXTENT) with false. change (ET_INVALID =? ET_CHECKPOINT) with false.
      change (ET_INVALID =? ET_LOG_MSGS_OR_DIC) with false. cbv iota. rewrite SK.
      destruct (pdrop_facts conv (map fst D) items Hi') as (D1 & D2 & D3 & D4). rewrite <- D4.
      cbn [length] in Hf. rewrite app_length in Hf.
      assert (D3' : (length (pfile (pdrop items) ++ tail) <= length (pfile items ++ tail))%nat) by (rewrite !app_length; lia).
      destruct (pfile (pdrop items) ++ tail) as [|x xs] eqn:EP.
      * destruct fuel as [|fuel]; [lia|]. cbn [m_unordered_loop md_file f_eof orb].
        assert (PE : plines cp (pdrop items) = []).
        { apply app_eq_nil in EP. destruct EP as [EP _]. clear - EP. induction items as [|[bs|tid np ms] items IH]; cbn [pdrop] in *; auto.
          unfold pfile in EP. cbn [map concat pitem_bytes] in EP. unfold extent_bytes in EP. discriminate EP. }
        rewrite PE. eexists _, _, _. splits; try reflexivity. cbn [md_printed]. change (zlen (messages [])) with 0. lia.
      * rewrite <- EP. apply IH; auto; [lia|]. rewrite EP in *. cbn [length] in *. lia.
    + destruct fuel as [|fuel]; [lia|]. destruct Hit as (T1 & T2 & T3). cbn [pitem_bytes] in T2.
      assert (EC : pfile (PExtent tid np ms :: items) = extent_bytes tid np (map pm_w ms) ++ pfile items) by reflexivity.
      rewrite EC in *. rewrite <- app_assoc in *. rewrite app_length in Hf.
      destruct (extent_head tid np (map pm_w ms) T1) as (b0 & r0 & E0 & T0).
      destruct (readBufferExtent_spec tid np (map pm_w ms) (pfile items ++ tail) b T1 (pmsgs_wm _ _ _ T3) T2) as (b' & RE & A).
      cbn [m_unordered_loop md_file f_eof md_good negb orb md_printed md_cp md_st md_open md_bf md_free].
      assert (PK : peekEntryType (File (extent_bytes tid np (map pm_w ms) ++ pfile items ++ tail) false) =
        (ET_BUFFER_EXTENT, File (extent_bytes tid np (map pm_w ms) ++ pfile items ++ tail) false)).
      { rewrite E0. unfold peekEntryType. cbn [f_rest app]. now rewrite T0. }
      rewrite PK. change (ET_BUFFER_EXTENT =? ET_BUFFER_EXTENT) with true. cbv iota. rewrite RE. cbv iota.
      destruct (m_drain_spec lim conv st D cp tid HU ms b' (S (S (Z.to_nat (bf_end b' - bf_pos b')))) A T3) as (b2 & evs & DR & E1 & E2 & E3).
      { intros _. lia. } { lia. }
      rewrite DR.
      assert (L0 : (0 < length (extent_bytes tid np (map pm_w ms)))%nat) by (rewrite E0; cbn [length]; lia).
      destruct (IH items ltac:(lia) cp op (pr + msgs_in evs) bfm fr b2 tail fuel Hi' HT ltac:(lia)) as (d' & b3 & evs' & EL & F1 & F2 & F3 & F4 & F5 & F6).
      rewrite EL. eexists _, _, _. splits; try reflexivity; auto.
      * now rewrite map_app, E1, F1.
      * rewrite F2, messages_app, zlen_app, messages_pshow. lia.
Qed.

(** Opening the file and decompressing it. *)
Lemma pre_decompress : forall lim conv m0 junk cp D items tail, execution_ok junk cp D -> zlen (metas_bytes D) <= lim ->
  Forall (pitem_ok conv (map fst D)) items -> ptorn tail ->
  exists d d' evs, md_open_file lim (new_mdecoder m0) (execution_bytes junk cp D ++ pfile items ++ tail) = Some (d, true) /\
    m_decompressUnordered lim conv d = Some (d', evs, zlen (messages (plines cp items))) /\ map line_of evs = plines cp items.
Proof.
  intros lim conv m0 junk cp D items tail HX HL Hi HT.
  assert (H0 : holds lim (Metas m0 0 [] []) []) by (unfold holds, uses; cbn; auto).
  destruct (C41_partial lim junk (Checkpoint 0 0 (repeat 0 8)) cp [] D (Metas m0 0 [] []) (pfile items ++ tail) H0 HX) as (st & D' & R & DD & (US & _)).
  { change (zlen (metas_bytes [])) with 0. lia. }
  { now left. }
  rewrite <- DD in Hi.
  destruct (pre_loop lim conv st D' US (length items) items (Nat.le_refl _) cp true 0 new_bfrag [] new_bfrag tail (S (S (length (pfile items ++ tail)))) Hi HT ltac:(lia))
    as (d' & b' & evs & EL & F1 & F2 & F3 & _).
  unfold md_open_file, new_mdecoder. cbn [md_cp md_st md_bf md_free]. rewrite R. eexists _, _, evs. split; [reflexivity|].
  unfold m_decompressUnordered. cbn [md_open negb md_free md_file md_printed md_bf md_good md_cp md_st f_rest allocateBufferFragment].
  rewrite EL, F3, F2, Z.add_0_l. split; [reflexivity|exact F1].
Qed.
