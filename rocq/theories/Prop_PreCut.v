(** C78: the log of a program the preprocessor handled, cut off at any byte. *)
From Verif Require Import Base BaseProofs Packer PackerProofs LogHeader LogHeaderProofs Chars Fmt FmtProofs MicroCode Args ArgsProofs Printf Decode DecodeProofs
  RingProofs Encoder Wire EncoderProofs Decoder FileSpec DecoderProofs Ordered OrderedProofs OrderSpec OrderTheory Prop_Ordered
  MetaDict Preproc PreprocProofs FmtLax FrontFmt FrontFmtProofs Prop_FrontFmt Prop_Args Regex MicroCodeProofs
  PreprocLit Prop_Message GenCode GenSpec GenProofs GenRecord GenMessage Prop_MetaDict Prop_Preproc Prop_GenCode GenDict Prop_GenDict
  MicroMem MemDecoder Prop_MemDecoder PreEncoder PreEncoderProofs PreFile Prop_PreEnd PreOrder Prop_PreOrder.
From Coq Require Import Permutation Sorted.
Ltac Zify.zify_post_hook ::= Z.div_mod_to_equations.

(** ** Specification *)

(** The batches whose extents are complete in the first [n] bytes behind [start]:
    [bs'], after which the encoder is [e']. *)
Definition complete_in (widen : list Z -> list Z) (units : list (list stmt)) (start : Z) (e1 : enc) (bs : list batch) (ks : list Z) (n : Z)
    (bs' : list batch) (ks' : list Z) (e' : enc) : Prop :=
  exists bs'' ks'', bs = bs' ++ bs'' /\ ks = ks' ++ ks'' /\ encoded widen units e1 bs' e' ks' /\ e_wp e' - start <= n /\
    match bs'' with [] => True | b :: _ => exists k e3, encoded widen units e' [b] e3 [k] /\ n < e_wp e3 - start end.

(** All at once, in the order of the file. *)
Definition reads_all (lim : Z) (conv : rconv -> list Z) (d : mdecoder) (cp : checkpoint) (units : list (list stmt)) (xs : list (Z * call)) : Prop :=
  exists d' evs, m_decompressUnordered lim conv d = Some (d', evs, zlen xs) /\ Forall2 (shows cp units) xs (map line_of evs).

(** Nothing is read. *)
Definition reads_nothing (lim : Z) (conv : rconv -> list Z) (pick : chooser) (d : mdecoder) : Prop :=
  m_decompressUnordered lim conv d = Some (d, [], -1) /\ m_decompressTo lim conv pick d = Some (d, [], -1) /\
  m_getNextLogStatement lim conv d = Some (d, [], false).

Definition cut_reads (widen : list Z -> list Z) (conv : rconv -> list Z) (pick : chooser) (units : list (list stmt)) (e : enc) (cp : checkpoint) (e1 : enc)
    (bs : list batch) (e2 : enc) (ks : list Z) (pad : list Z) (lim : Z) (order : Prop) : Prop :=
  forall m0 n, let content := firstn n (load (e_mem e2) (e_wp e) (Z.to_nat (e_wp e2 - e_wp e)) ++ pad) in
  if Z.of_nat n <? e_wp e1 - e_wp e
  then exists d, md_open_file lim (new_mdecoder m0) content = Some (d, false) /\ reads_nothing lim conv pick d
  else exists bs' ks' e' d, complete_in widen units (e_wp e) e1 bs ks (Z.of_nat n) bs' ks' e' /\
    md_open_file lim (new_mdecoder m0) content = Some (d, true) /\
    reads_all lim conv d cp units (taken bs' ks') /\ reads_each lim conv d cp units (taken bs' ks') /\
    reads_ordered lim conv pick d cp units (taken bs' ks') order.

Definition C78_full : Prop := forall widen conv pick units es e rdtsc unix cps e1 bs e2 ks pad lim,
  heap_front pick ->
  program_dict units = Some es -> Forall (fun s => 0 <= st_line s < 2 ^ 31) (concat units) ->
  enc_ready e -> 0 <= rdtsc < 2 ^ 64 -> 0 <= unix < 2 ^ 64 -> length cps = 8%nat -> Forall is_byte cps ->
  insertCheckpointDict e rdtsc unix cps es = (e1, true) ->
  Forall (fun b => Forall (call_defined widen conv units) (ba_calls b)) bs ->
  encoded widen units e1 bs e2 ks -> Forall pad_byte pad -> e_wp e2 - e_wp e <= lim ->
  cut_reads widen conv pick units e (Checkpoint rdtsc unix cps) e1 bs e2 ks pad lim (batches_sorted bs /\ nearly_in_order (rounds bs ks)).

(** ** A torn dictionary *)
Lemma torn_execution : forall lim junk cp D n cp0 st, execution_ok junk cp D -> ms_end st + zlen (metas_bytes D) <= lim ->
  (n < length (execution_bytes junk cp D))%nat ->
  exists f cp' st', read_dictionary lim true cp0 st (File (firstn n (execution_bytes junk cp D)) false) = Some (f, cp', st', false).
Proof.
  intros lim junk cp D n cp0 st HX HL Hn. pose proof HX as (_ & _ & _ & Hl & _).
  pose proof (execution_split junk cp D []) as ES. rewrite !app_nil_r in ES. rewrite ES in *.
  pose proof (head_zlen junk cp D Hl) as HZ. destruct (head_slices junk cp D HX) as (S1 & S2 & S3 & S4).
  rewrite firstn_app. unfold read_dictionary. destruct (Nat.lt_ge_cases n 33) as [K|K].
  - replace (n - length (execution_head junk cp D))%nat with 0%nat by (unfold zlen in HZ; lia). rewrite firstn_O, app_nil_r.
    assert (Z2 : zlen (firstn n (execution_head junk cp D)) < 33) by (unfold zlen in *; rewrite firstn_length; lia).
    rewrite fread_short by auto. replace (zlen (firstn n (execution_head junk cp D)) <? 33) with true by lia. eexists _, _, _. reflexivity.
  - rewrite firstn_all2 by (unfold zlen in HZ; lia). rewrite (fread_app 33) by auto. rewrite HZ. change (33 <? 33) with false. cbv iota.
    rewrite S1. change (ET_CHECKPOINT =? ET_CHECKPOINT) with true. cbn [negb]. cbv zeta. rewrite S3.
    set (t := firstn (n - length (execution_head junk cp D)) (metas_bytes D)).
    assert (Z3 : zlen t < zlen (metas_bytes D)).
    { subst t. unfold zlen in *. rewrite firstn_length. rewrite app_length in Hn. lia. }
    rewrite fread_short by auto. replace (lim <? ms_end st + zlen t) with false by lia. replace (zlen t =? zlen (metas_bytes D)) with false by lia.
    eexists _, _, _. reflexivity.
Qed.

(** ** A torn extent *)

(** What one call of the encoder writes. *)
Lemma encoded_one : forall widen conv units es e b e1 k, program_ok units es -> enc_ready e ->
  Forall (call_defined widen conv units) (ba_calls b) -> Forall call_ok (ba_calls b) -> encoded widen units e [b] e1 [k] ->
  e_wp e1 = e_wp e \/ exists ws, 0 <= ba_tid b < 2 ^ 32 /\
    load (e_mem e1) (e_wp e) (Z.to_nat (e_wp e1 - e_wp e)) = extent_bytes (ba_tid b) (ba_pass b) ws /\ zlen (extent_bytes (ba_tid b) (ba_pass b) ws) <= EXTENT_MAX.
Proof.
  intros widen conv units es e b e1 k HP HR D1 O1 H. inversion H as [|? ? min fin e1' read k' ? ? ? EL MB L30 NB TI EE EX HE]; subst. inversion HE; subst.
  destruct (calls_pairs widen conv units es (ba_calls b) HP D1 O1) as (ps & E1 & F1).
  destruct (log_all_staged widen conv units es ps (ba_mem b) (ba_at b) F1) as (m' & EL' & MM).
  rewrite E1, EL in EL'. assert (min = m' /\ fin = ba_at b + zlen (staged ps)) as [-> ->] by (split; congruence).
  destruct (pairs_squeeze widen conv units es ps F1 ltac:(lia)) as [S1 S2].
  set (xs := map (fun q => fst (snd q)) ps) in *.
  assert (LD : load m' (ba_at b) (length (concat (map am_bytes xs))) = concat (map am_bytes xs)).
  { rewrite (meq_load _ _ _ _ MM). apply load_store_same. }
  destruct HR as (R1 & R2 & R3). unfold encodeLogMsgsPre in EE.
  destruct (squeeze_with (pp_compress units) (printed_by conv ps) xs m' (ba_at b) (ba_bytes b) (ba_tid b) (ba_pass b) e e1 read k
    S1 S2 MB R1 R2 R3 TI LD ltac:(fold (staged ps); unfold staged, xs in *; lia) EE)
    as [(Z9 & -> & _)|(n & ws & Z9 & Nn & _ & SQ & RE & LX & WP & _)]; [now left|].
  right. exists ws. split; [exact TI|]. split; [|lia].
  replace (Z.to_nat (e_wp e1 - e_wp e)) with (length (extent_bytes (ba_tid b) (ba_pass b) ws)) by (unfold zlen in *; lia). exact LX.
Qed.

Lemma encoded_app_inv : forall widen units e b bs e2 k ks, encoded widen units e (b :: bs) e2 (k :: ks) ->
  exists e1, encoded widen units e [b] e1 [k] /\ encoded widen units e1 bs e2 ks.
Proof.
  intros widen units e b bs e2 k ks H. inversion H; subst. exists e1. split; auto. econstructor; eauto. constructor.
Qed.

Lemma load_two : forall m p a b, 0 <= a -> 0 <= b -> load m p (Z.to_nat (a + b)) = load m p (Z.to_nat a) ++ load m (p + a) (Z.to_nat b).
Proof. intros m p a b Ha Hb. rewrite Z2Nat.inj_add, load_app by lia. f_equal. f_equal. lia. Qed.

Lemma encoded_cut : forall widen conv units es (cp : checkpoint), program_ok units es -> forall bs ks e e2, encoded widen units e bs e2 ks ->
  enc_ready e -> Forall (fun b => Forall (call_defined widen conv units) (ba_calls b)) bs -> Forall (fun b => Forall call_ok (ba_calls b)) bs ->
  forall n, 0 <= n ->
  exists bs' ks' e' tail, complete_in widen units (e_wp e) e bs ks n bs' ks' e' /\ ptorn tail /\
    firstn (Z.to_nat n) (load (e_mem e2) (e_wp e) (Z.to_nat (e_wp e2 - e_wp e))) = load (e_mem e') (e_wp e) (Z.to_nat (e_wp e' - e_wp e)) ++ tail /\
    (e_wp e2 - e_wp e <= n -> tail = []).
Proof.
  intros widen conv units es cp HP. induction bs as [|b bs IH]; intros ks e e2 HE HR HD HO n Hn.
  - inversion HE; subst. exists [], [], e2, []. rewrite Z.sub_diag. cbn [Z.to_nat load app]. rewrite firstn_nil. splits; auto; [|now left].
    exists [], []. splits; auto; lia.
  - destruct ks as [|k ks]; [inversion HE|]. destruct (encoded_app_inv _ _ _ _ _ _ _ _ HE) as (e1 & H1 & H2).
    inversion HD as [|? ? D1 D2]; subst. inversion HO as [|? ? O1 O2]; subst.
    destruct (encoded_items widen conv units es cp HP e [b] e1 [k] H1 HR ltac:(auto) ltac:(auto)) as (_ & _ & W1 & R1 & _ & _ & _).
    destruct (encoded_items widen conv units es cp HP e1 bs e2 ks H2 R1 D2 O2) as (_ & _ & W2 & _ & _ & FR2 & _).
    assert (LS : load (e_mem e2) (e_wp e) (Z.to_nat (e_wp e2 - e_wp e)) =
      load (e_mem e1) (e_wp e) (Z.to_nat (e_wp e1 - e_wp e)) ++ load (e_mem e2) (e_wp e1) (Z.to_nat (e_wp e2 - e_wp e1))).
    { replace (e_wp e2 - e_wp e) with ((e_wp e1 - e_wp e) + (e_wp e2 - e_wp e1)) by lia. rewrite load_two by lia.
      replace (e_wp e + (e_wp e1 - e_wp e)) with (e_wp e1) by lia. f_equal. apply load_ext. intros y Hy. apply FR2. lia. }
    rewrite LS. rewrite firstn_app, load_length. destruct (Z_lt_ge_dec n (e_wp e1 - e_wp e)) as [L|G].
    + replace (Z.to_nat n - Z.to_nat (e_wp e1 - e_wp e))%nat with 0%nat by lia. rewrite firstn_O, app_nil_r.
      exists [], [], e, (firstn (Z.to_nat n) (load (e_mem e1) (e_wp e) (Z.to_nat (e_wp e1 - e_wp e)))). rewrite Z.sub_diag. cbn [Z.to_nat load app]. splits; auto; [| |lia].
      * exists (b :: bs), (k :: ks). splits; auto; [constructor|lia|]. exists k, e1. split; auto.
      * destruct (encoded_one widen conv units es e b e1 k HP HR D1 O1 H1) as [E|(ws & T & LX & SZ)]; [lia|].
        destruct (Z.eq_dec n 0) as [->|N0]; [now left|]. right. exists (ba_tid b), (ba_pass b), ws, (Z.to_nat n). rewrite LX. split; [exact T|]. split; [exact SZ|]. split; [|reflexivity].
        rewrite <- LX, load_length. lia.
    + rewrite firstn_all2 by (rewrite load_length; lia). replace (Z.to_nat n - Z.to_nat (e_wp e1 - e_wp e))%nat with (Z.to_nat (n - (e_wp e1 - e_wp e))) by lia.
      destruct (IH ks e1 e2 H2 R1 D2 O2 (n - (e_wp e1 - e_wp e)) ltac:(lia)) as (bs' & ks' & e' & tail & C & T & F & TE).
      destruct C as (bs'' & ks'' & -> & -> & EC & WC & MC).
      apply Forall_app in D2. destruct D2 as [D2 _]. apply Forall_app in O2. destruct O2 as [O2 _].
      destruct (encoded_items widen conv units es cp HP e1 bs' e' ks' EC R1 D2 O2) as (_ & _ & W3 & _ & _ & FR3 & _).
      exists (b :: bs'), (k :: ks'), e', tail. splits; auto; [| |intro; apply TE; lia].
      * exists bs'', ks''. splits; auto; [|lia|].
        -- inversion H1; subst. match goal with X : encoded _ _ _ [] _ [] |- _ => inversion X; subst end. econstructor; eauto.
        -- destruct bs'' as [|b2 bs2]; [exact I|]. destruct MC as (k3 & e3 & M1 & M2). exists k3, e3. split; [exact M1|lia].
      * rewrite F, app_assoc. f_equal. replace (e_wp e' - e_wp e) with ((e_wp e1 - e_wp e) + (e_wp e' - e_wp e1)) by lia. rewrite load_two by lia.
        replace (e_wp e + (e_wp e1 - e_wp e)) with (e_wp e1) by lia. f_equal. apply load_ext. intros y Hy. symmetry. apply FR3. lia.
Qed.

(** ** The order of what is left *)
Lemma rounds_nonempty : forall bs ks, exists r rs, rounds bs ks = r :: rs.
Proof.
  induction bs as [|b bs IH]; intros [|k ks]; try (eexists _, _; reflexivity). cbn [rounds]. destruct (IH ks) as (r & rs & ->).
  destruct (ba_pass b); eexists _, _; reflexivity.
Qed.

Lemma rounds_prefix : forall bs' ks' bs'' ks'' i x, length bs' = length ks' ->
  In x (nth i (rounds bs' ks') []) -> In x (nth i (rounds (bs' ++ bs'') (ks' ++ ks'')) []).
Proof.
  induction bs' as [|b bs' IH]; intros [|k ks'] bs'' ks'' i x HL HI; try discriminate HL.
  - cbn [rounds] in HI. destruct i as [|[|i]]; contradiction HI.
  - cbn [rounds app] in *. injection HL as HL. destruct (ba_pass b).
    + destruct i as [|i]; cbn [nth] in *; auto.
    + destruct (rounds_nonempty bs' ks') as (r & rs & E1). destruct (rounds_nonempty (bs' ++ bs'') (ks' ++ ks'')) as (r2 & rs2 & E2).
      specialize (IH ks' bs'' ks''). rewrite E1, E2 in *. destruct i as [|i]; cbn [nth] in *.
      * apply in_app_or in HI. apply in_or_app. destruct HI as [HI|HI]; [now left|right]. exact (IH 0%nat x HL HI).
      * exact (IH (S i) x HL HI).
Qed.

Lemma encoded_lengths : forall widen units e bs e2 ks, encoded widen units e bs e2 ks -> length bs = length ks.
Proof. intros widen units e bs e2 ks H. induction H; cbn [length]; auto. Qed.

Lemma order_prefix : forall bs' ks' bs'' ks'', length bs' = length ks' ->
  batches_sorted (bs' ++ bs'') /\ nearly_in_order (rounds (bs' ++ bs'') (ks' ++ ks'')) /\ all_took (ks' ++ ks'') ->
  batches_sorted bs' /\ nearly_in_order (rounds bs' ks') /\ all_took ks'.
Proof.
  intros bs' ks' bs'' ks'' HL (A & B & C). unfold batches_sorted, all_took in *. apply Forall_app in A. apply Forall_app in C. splits; try tauto.
  intros i j x y Hij Hx Hy. apply (B i j x y Hij); now apply rounds_prefix.
Qed.

(** ** C78 within the limits of C61, in order as C76 *)
Theorem C78_partial : forall widen conv pick units es e rdtsc unix cps e1 bs e2 ks pad lim,
  heap_front pick ->
  program_dict units = Some es -> Forall (fun s => 0 <= st_line s < 2 ^ 31) (concat units) ->
  enc_ready e -> 0 <= rdtsc < 2 ^ 64 -> 0 <= unix < 2 ^ 64 -> length cps = 8%nat -> Forall is_byte cps ->
  insertCheckpointDict e rdtsc unix cps es = (e1, true) ->
  Forall (fun b => Forall (call_defined widen conv units) (ba_calls b)) bs ->
  encoded widen units e1 bs e2 ks -> Forall pad_byte pad -> e_wp e2 - e_wp e <= lim ->
  program_ok units es -> Forall (fun b => Forall call_ok (ba_calls b)) bs ->
  cut_reads widen conv pick units e (Checkpoint rdtsc unix cps) e1 bs e2 ks pad lim
    (batches_sorted bs /\ nearly_in_order (rounds bs ks) /\ all_took ks).
Proof.
  intros widen conv pick units es e rdtsc unix cps e1 bs e2 ks pad lim HPk HPd HLn (Hm & He & Hsp) Hr Hu Hc Hb E HD HE Hpad Hlim HP HO m0 n. cbv zeta.
  pose proof HP as (_ & _ & HF & _ & _ & HS).
  destruct (C49_written e rdtsc unix cps es e1 true Hm He Hr Hu Hc Hb HF HS E) as (_ & _ & EN & HI & _ & MB & _ & C).
  destruct (C eq_refl) as (WP & junk & D & DM & OK & LD).
  pose proof (bare_size es D DM) as SZ. pose proof (zlen_nonneg _ (metas_bytes D)).
  set (cp := Checkpoint rdtsc unix cps) in *.
  assert (RD : enc_ready e1) by (split; [exact MB|]; split; [exact HI|]; unfold e_space in *; lia).
  destruct (encoded_items widen conv units es cp HP e1 bs e2 ks HE RD HD HO) as (_ & _ & W2 & _ & _ & FR & _).
  set (size := 33 + zlen (metas_bytes (GenDict.bare es))) in *.
  assert (LX : length (execution_bytes junk cp D) = Z.to_nat size) by (rewrite <- LD; apply load_length).
  assert (BY : load (e_mem e2) (e_wp e) (Z.to_nat (e_wp e2 - e_wp e)) = execution_bytes junk cp D ++ load (e_mem e2) (e_wp e1) (Z.to_nat (e_wp e2 - e_wp e1))).
  { replace (e_wp e2 - e_wp e) with (size + (e_wp e2 - e_wp e1)) by lia. rewrite load_two by lia. rewrite <- WP. f_equal.
    rewrite <- LD. apply load_ext. intros y Hy. apply FR. lia. }
  rewrite BY, <- app_assoc, firstn_app, LX.
  destruct (Z.of_nat n <? e_wp e1 - e_wp e) eqn:EC.
  - replace (n - Z.to_nat size)%nat with 0%nat by lia. rewrite firstn_O, app_nil_r.
    destruct (torn_execution lim junk cp D n (Checkpoint 0 0 (repeat 0 8)) (Metas m0 0 [] []) OK) as (f & cp' & st & R).
    { cbn [ms_end]. lia. } { lia. }
    unfold md_open_file, new_mdecoder. cbn [md_cp md_st md_bf md_free md_printed]. rewrite R. eexists. split; [reflexivity|]. unfold reads_nothing. splits; reflexivity.
  - rewrite firstn_all2 by lia. rewrite firstn_app, load_length.
    destruct (encoded_cut widen conv units es cp HP bs ks e1 e2 HE RD HD HO (Z.of_nat n - size) ltac:(lia)) as (bs' & ks' & e' & tail & CI & TT & FF & TE).
    destruct CI as (bs'' & ks'' & -> & -> & EP & WL & MX).
    pose proof HD as HD'. pose proof HO as HO'. apply Forall_app in HD'. destruct HD' as [HD' _]. apply Forall_app in HO'. destruct HO' as [HO' _].
    destruct (encoded_items widen conv units es cp HP e1 bs' e' ks' EP RD HD' HO') as (items & A1 & A2 & A3 & A4 & A5 & A6 & A7 & A8).
    replace (n - Z.to_nat size)%nat with (Z.to_nat (Z.of_nat n - size)) by lia. rewrite FF, A4.
    set (pad' := firstn (Z.to_nat (Z.of_nat n - size) - Z.to_nat (e_wp e2 - e_wp e1)) pad).
    assert (PD : (pfile items ++ tail) ++ pad' = pfile (items ++ [PPad pad']) ++ tail).
    { rewrite pfile_app. unfold pfile at 3. cbn [map concat pitem_bytes]. rewrite app_nil_r.
      destruct (Z_le_gt_dec (e_wp e2 - e_wp e1) (Z.of_nat n - size)) as [L|G].
      - rewrite (TE L). now rewrite !app_nil_r.
      - unfold pad'. replace (Z.to_nat (Z.of_nat n - size) - Z.to_nat (e_wp e2 - e_wp e1))%nat with 0%nat by lia. rewrite firstn_O. now rewrite !app_nil_r. }
    rewrite PD. set (all := items ++ [PPad pad']).
    assert (AOK : Forall (pitem_ok conv (map fst D)) all).
    { rewrite DM. apply Forall_app. split; [exact A1|]. constructor; [|constructor]. cbn [pitem_ok]. unfold pad'. apply Forall_firstn'. exact Hpad. }
    destruct (pre_read lim conv pick m0 junk cp D all tail HPk OK ltac:(lia) AOK TT) as (d & O1 & (d' & evs & I1 & I2 & I3) & (d'' & evs' & P1 & P2 & P3)).
    destruct (pre_decompress lim conv m0 junk cp D all tail OK ltac:(lia) AOK TT) as (d9 & d8 & evs8 & O9 & U1 & U2).
    assert (d9 = d) by congruence. subst d9.
    assert (PL : plines cp all = plines cp items) by (unfold all; rewrite plines_app; cbn [plines]; apply app_nil_r).
    rewrite PL in *.
    assert (NM : zlen (messages (plines cp items)) = zlen (taken bs' ks')).
    { rewrite (shows_messages _ _ _ _ A6). clear - A6. induction A6; [reflexivity|]. rewrite !zlen_cons. lia. }
    exists bs', ks', e', d. split.
    { exists bs'', ks''. splits; auto; [lia|]. destruct bs'' as [|b3 bs3]; [exact I|]. destruct MX as (k3 & e3 & M1 & M2). exists k3, e3. split; [exact M1|lia]. }
    split; [exact O1|]. split; [|split].
    + exists d8, evs8. rewrite <- NM. split; [exact U1|]. rewrite U2. exact A6.
    + exists d', evs. assert (LN : length (messages (plines cp items)) = length (taken bs' ks')) by (unfold zlen in NM; lia).
      rewrite <- LN. split; [exact I1|]. split; [lia|]. rewrite I2. exact A6.
    + exists d'', evs', (plines cp items).
      assert (NP : zlen (messages (map line_of evs')) = zlen (taken bs' ks')).
      { rewrite <- NM. unfold messages, zlen. f_equal. apply Permutation_length. clear - P2.
        induction P2; cbn [map concat]; auto; [now apply Permutation_app_head|rewrite !app_assoc; apply Permutation_app_tail, Permutation_app_comm|eapply perm_trans; eauto]. }
      rewrite <- NP. split; [exact P1|]. split; [exact P2|]. split; [exact A6|]. intro ORD.
      destruct (order_prefix bs' ks' bs'' ks'' (encoded_lengths _ _ _ _ _ _ EP) ORD) as (B1 & B2 & B3).
      specialize (A7 B3).
      assert (FA : flat_map stamps_of all = flat_map stamps_of items) by (unfold all; rewrite flat_map_app; cbn [flat_map stamps_of app]; apply app_nil_r).
      assert (PE : map (map ts) (passes (map it_of all)) = map (map ca_ts) (rounds bs' ks')) by (rewrite passes_stamps, rounds_stamps, FA, A7; reflexivity).
      apply P3.
      * intros tid np ms HIn. apply extents_in in HIn. rewrite FA, A7 in HIn. destruct (batch_in _ _ _ _ B1 HIn) as (cs & EC' & SC).
        eapply (sorted_stamps call fmsg ca_ts ts); [symmetry; exact EC'|exact SC].
      * intros i j x y Hij Hx Hy. destruct (nth_stamps _ _ ts ca_ts _ _ i x PE Hx) as (x' & Hx' & EX).
        destruct (nth_stamps _ _ ts ca_ts _ _ j y PE Hy) as (y' & Hy' & EY). unfold ts in EX, EY. rewrite EX, EY. exact (B2 i j x' y' Hij Hx' Hy').
      * intros tid np ms HIn EM. subst ms. apply extents_in in HIn. rewrite FA in HIn. exact (A8 _ HIn B3 eq_refl).
Qed.
Print Assumptions C78_partial.

(** The file of C61_refuted cannot be opened, cut off or not. *)
Theorem C78_refuted : ~ C78_full.
Proof.
  intro F. destruct (program_dict w_escape) as [es|] eqn:E; [|vm_compute in E; discriminate E].
  destruct (insertCheckpointDict (enc_demo 200) 1000 1700000000 cps_demo es) as [e1 ok] eqn:EI.
  assert (EE : forall es', Some es' = program_dict w_escape -> snd (insertCheckpointDict (enc_demo 200) 1000 1700000000 cps_demo es') = true /\
    match md_open_file 4096 (new_mdecoder (fun _ => 0)) (load (e_mem (fst (insertCheckpointDict (enc_demo 200) 1000 1700000000 cps_demo es'))) 0
      (Z.to_nat (e_wp (fst (insertCheckpointDict (enc_demo 200) 1000 1700000000 cps_demo es')) - 0)) ++ []) with Some (_, b) => b = false | None => True end /\
    e_wp (fst (insertCheckpointDict (enc_demo 200) 1000 1700000000 cps_demo es')) - 0 <= 4096).
  { intros es' E'. vm_compute in E'. apply some_inj in E'. subst es'. split; [vm_compute; reflexivity|]. split; [vm_compute; exact eq_refl|vm_compute; discriminate]. }
  destruct (EE es (eq_sym E)) as (Q1 & Q2 & Q3). rewrite EI in Q1, Q2, Q3. cbn [fst snd] in Q1, Q2, Q3. subst ok.
  assert (G : cut_reads widen0 showw pick_first w_escape (enc_demo 200) (Checkpoint 1000 1700000000 cps_demo) e1 [] e1 [] [] 4096
    (batches_sorted [] /\ nearly_in_order (rounds [] []))).
  { apply (F widen0 showw pick_first w_escape es (enc_demo 200) 1000 1700000000 cps_demo e1 [] e1 [] [] 4096); auto.
    - exact pick_first_heap.
    - repeat constructor; cbn [st_line]; lia.
    - split; [apply demo_bytes|]. unfold e_space. cbn [enc_demo e_wp e_hi e_end]. lia.
    - lia.
    - lia.
    - exact cps_bytes.
    - constructor. }
  specialize (G (fun _ => 0) (Z.to_nat (e_wp e1 - e_wp (enc_demo 200)))). cbv zeta in G. rewrite firstn_all2 in G by (rewrite app_nil_r, load_length; lia).
  rewrite (proj2 (Z.ltb_ge (Z.of_nat (Z.to_nat (e_wp e1 - e_wp (enc_demo 200)))) (e_wp e1 - e_wp (enc_demo 200)))) in G by (generalize (e_wp e1 - e_wp (enc_demo 200)); lia).
  destruct G as (bs' & ks' & e' & d & _ & O & _). change (e_wp (enc_demo 200)) with 0 in O. rewrite O in Q2. discriminate Q2.
Qed.
Print Assumptions C78_refuted.

(** ** Examples *)

(** The file of C76_three_ways, cut: how many bytes, is it opened, and what is
    read in the three ways. *)
Definition cut78 (n : nat) : option (Z * bool * list (Z * Z) * list (Z * Z) * list (Z * Z)) :=
  match program_dict u49 with
  | None => None
  | Some es =>
    match puts76 (fst (insertCheckpointDict (enc_demo 600) 1000 1700000000 cps_demo es), [])
            [(1, false, calls76 10 40); (2, true, calls76 20 30); (1, true, calls76 45 70); (2, true, calls76 41 50)] with
    | None => None
    | Some (e2, ks) =>
      match md_open_file 4096 (new_mdecoder (fun _ => 0)) (firstn n (load (e_mem e2) 0 (Z.to_nat (e_wp e2)) ++ [0; 0])) with
      | Some (d, ok) =>
        match m_decompressUnordered 4096 showw d, m_iterate 4096 showw 9 d, m_decompressTo 4096 showw pick_first d with
        | Some (_, a, _), Some (_, b, _), Some (_, c, _) => Some (e_wp e2, ok, stamps a, stamps b, stamps c)
        | _, _, _ => None
        end
      | _ => None
      end
    end
  end.
Example C78_in_the_dictionary : cut78 150 = Some (222, false, [], [], []).
Proof. vm_compute. reflexivity. Qed.

Example C78_in_an_extent : cut78 200 = Some (222, true, [(1, 10); (1, 40); (2, 20); (2, 30)], [(1, 10); (1, 40); (2, 20); (2, 30)], [(1, 10); (2, 20); (2, 30); (1, 40)]).
Proof. vm_compute. reflexivity. Qed.
