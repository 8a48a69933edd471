(** Lemmas on reading well-formed files. *)
From Verif Require Import Base BaseProofs Packer PackerProofs LogHeader LogHeaderProofs Prop_Packer Chars Fmt FmtProofs FmtLax FrontFmt FrontFmtProofs
  Prop_FrontFmt MicroCode MicroCodeProofs Prop_MicroCode Args Printf ArgsProofs Prop_Args Decode DecodeProofs Prop_Message
  Encoder Wire EncoderProofs Decoder FileSpec.

(** What the decompressor prints for a message of a file. *)
Definition decodes (conv : rconv -> list Z) (s : site) (w : wmsg) (text : list Z) : Prop :=
  exists mc, createMicroCode (si_fmt s) (si_file s) (si_line s) (si_severity s) = Some mc /\
    forall m o lim, load m o (length (w_body w)) = w_body w -> o + zlen (w_body w) <= lim ->
      exists pushed, print_message conv mc m o lim = Some (text, pushed, o + zlen (w_body w)).

Lemma written_decodes : forall conv s w text, written conv s w text -> decodes conv s w text.
Proof.
  intros conv s w text (ps & args & Es & (Hok & Hpi & Hw & Hf & Hlen & HR) & HB & HH & HBody).
  pose proof (kstr_class_ok ps Hok Hpi) as Hc.
  assert (HA : Forall2 arg_ok (params ps) args).
  { clear - Hc Hw Hf HH. revert Hc Hw Hf. induction HH as [|k a ks as' Hh HH IH]; intros Hc Hw Hf; constructor.
    - inversion Hc; inversion Hw; inversion Hf; subst. unfold arg_ok. repeat split; auto.
      + destruct k; cbn in *; auto; discriminate.
      + intros [-> | ->]; exact Hh.
    - inversion Hc; inversion Hw; inversion Hf; subst. apply IH; auto. }
  destruct (C08_agreement_partial ps (si_file s) (si_line s) (si_severity s) HB)
    as (mc & gs & nib & n & pts & EA & EM & NN & CG & DG & NF & _ & _).
  rewrite (C07_analysis_exact ps Hok Hpi) in EA.
  assert (nib = nonstrings ps /\ n = length (params ps) /\ pts = map report (params ps)) as (-> & -> & ->)
    by (unfold nonstrings; repeat split; congruence).
  pose proof (pvals_count (params ps) args Hc Hlen) as PC. fold (nonstrings ps) in PC.
  exists mc. rewrite Es. split; auto. intros m' o' lim HL Hlim.
  destruct (body_at _ _ _ _ _ HBody HL) as [B' L'].
  set (xs := pvals (map report (params ps)) args) in *.
  pose proof (zlen_nonneg _ xs). pose proof (zlen_nonneg _ (pvalues xs)).
  pose proof (pvals_wf (map report (params ps)) args Hw) as Wx. fold xs in Wx.
  destruct HB as (_ & _ & _ & _ & _ & HN & _).
  pose proof (nibbler_init_at m' o' xs Wx ltac:(lia) B') as NI.
  unfold print_message. rewrite NN, <- PC. rewrite NF.
  replace (Z.to_nat (zlen (mc_frags mc))) with (length (mc_frags mc)) by (unfold zlen; lia). rewrite firstn_all.
  set (nb := nibbler_init m' o' (zlen xs)) in *.
  assert (EE : nb_end nb = o' + ((zlen xs + 1) / 2 + zlen (pvalues xs))).
  { destruct NI as (_ & _ & E). rewrite E. subst nb. unfold nibbler_init. cbn [nb_cur]. lia. }
  assert (BL : zlen (w_body w) = (zlen xs + 1) / 2 + zlen (pvalues xs) + zlen (strings_image (params ps) None args)) by apply HBody.
  subst ps.
  destruct (print_groups conv gs (mc_frags mc) args text m' lim (Pst [] [] nb (nb_end nb)) None DG Hok HA HR)
    as (s' & lr & pv & P & X & _ & _ & _ & Z'); cbn [ps_nb ps_str ps_text] in *.
  - exact NI.
  - rewrite EE. exact L'.
  - rewrite EE. lia.
  - rewrite P. exists (ps_pushed s'). rewrite X, Z', EE. cbn [app]. f_equal. f_equal. lia.
Qed.

(** ** Files *)
Lemma fread_app : forall n a b e, zlen a = n -> fread n (File (a ++ b) e) = (a, File b e).
Proof.
  intros n a b e H. unfold fread. cbn [f_rest f_eof].
  assert (Z.to_nat n = length a) as -> by (unfold zlen in H; lia).
  rewrite firstn_app, firstn_all, Nat.sub_diag, firstn_O, app_nil_r.
  rewrite skipn_app, skipn_all, Nat.sub_diag, skipn_O. cbn [app].
  replace (zlen a <? n) with false by lia. now rewrite orb_false_r.
Qed.

Lemma fread_short : forall n a e, zlen a < n -> fread n (File a e) = (a, File [] true).
Proof.
  intros n a e H. unfold fread. cbn [f_rest f_eof].
  rewrite firstn_all2, skipn_all2 by (unfold zlen in H; lia).
  replace (zlen a <? n) with true by lia. now rewrite orb_true_r.
Qed.

Lemma slice_app : forall off n a b c, zlen a = off -> zlen b = n -> slice off n (a ++ b ++ c) = b.
Proof.
  intros off n a b c Ha Hb. unfold slice.
  assert (Z.to_nat off = length a) as -> by (unfold zlen in Ha; lia).
  assert (Z.to_nat n = length b) as -> by (unfold zlen in Hb; lia).
  rewrite skipn_app, skipn_all, Nat.sub_diag, skipn_O. cbn [app].
  rewrite firstn_app, firstn_all, Nat.sub_diag, firstn_O, app_nil_r. reflexivity.
Qed.

Lemma slice_head : forall n b c, zlen b = n -> slice 0 n (b ++ c) = b.
Proof. intros. change (b ++ c) with ([] ++ b ++ c). now apply slice_app. Qed.

(** ** Checkpoints *)
Lemma checkpoint_zlen : forall junk r u c, length c = 8%nat -> zlen (checkpoint_bytes junk r u c) = 33.
Proof.
  intros. unfold checkpoint_bytes. rewrite !zlen_app, !le_bytes_zlen, zlen_cons, zlen_nil. unfold zlen. lia.
Qed.

Lemma readDictionary_spec : forall conv known junk cp rest cp0 dict, item_ok conv known (ICheckpoint junk cp) ->
  readDictionary cp0 dict (File (item_bytes (ICheckpoint junk cp) ++ rest) false) = Some (File rest false, cp, [], true).
Proof.
  intros conv known junk [r u c] rest cp0 dict (Hj & Hr & Hu & Hl & Hc). cbn [item_bytes cp_rdtsc cp_unixTime cp_cps] in *.
  unfold readDictionary. rewrite (fread_app 33) by now apply checkpoint_zlen.
  rewrite checkpoint_zlen by auto. change (33 <? 33) with false. cbv iota.
  assert (E0 : entryType (nth 0 (checkpoint_bytes junk r u c) 0) = ET_CHECKPOINT).
  { cbn [checkpoint_bytes nth app]. unfold entryType. unfold ET_CHECKPOINT. bf. }
  rewrite E0. change (ET_CHECKPOINT =? ET_CHECKPOINT) with true. cbn [negb].
  set (h := [3 + 4 * junk]).
  assert (Zh : zlen h = 1) by reflexivity. assert (Zc : zlen c = 8) by (unfold zlen; lia).
  assert (S1 : slice 1 8 (checkpoint_bytes junk r u c) = le_bytes 8 r).
  { unfold checkpoint_bytes. fold h. apply slice_app; auto. }
  assert (S2 : slice 9 8 (checkpoint_bytes junk r u c) = le_bytes 8 u).
  { unfold checkpoint_bytes. fold h. rewrite (app_assoc h). apply slice_app; [|reflexivity]. rewrite zlen_app, le_bytes_zlen. lia. }
  assert (S3 : slice 17 8 (checkpoint_bytes junk r u c) = c).
  { unfold checkpoint_bytes. fold h. rewrite (app_assoc h), (app_assoc (h ++ le_bytes 8 r)). apply slice_app; [|auto].
    rewrite !zlen_app, !le_bytes_zlen. lia. }
  assert (S4 : slice 25 4 (checkpoint_bytes junk r u c) = le_bytes 4 0).
  { unfold checkpoint_bytes. fold h. rewrite (app_assoc h), (app_assoc (h ++ le_bytes 8 r)), (app_assoc ((h ++ le_bytes 8 r) ++ _)).
    apply slice_app; [|reflexivity]. rewrite !zlen_app, !le_bytes_zlen. lia. }
  assert (S5 : slice 29 4 (checkpoint_bytes junk r u c) = le_bytes 4 0).
  { unfold checkpoint_bytes. fold h. rewrite <- (app_nil_r (le_bytes 4 0)) at 2.
    rewrite (app_assoc h), (app_assoc (h ++ le_bytes 8 r)), (app_assoc ((h ++ le_bytes 8 r) ++ _)).
    rewrite (app_assoc (((h ++ le_bytes 8 r) ++ _) ++ _)).
    apply slice_app; [|reflexivity]. rewrite !zlen_app, !le_bytes_zlen. lia. }
  rewrite S1, S2, S3, S4, S5. rewrite !le_val_le_bytes.
  change (256 ^ Z.of_nat 8) with (2 ^ 64). change (0 mod 256 ^ Z.of_nat 4) with 0. change (0 =? 0) with true. cbn [negb].
  rewrite !Z.mod_small by lia. reflexivity.
Qed.

(** ** Dictionary fragments *)
Definition entry_of (s : site) : dentry :=
  DEntry (si_fmt s) (createMicroCode (si_fmt s) (si_file s) (si_line s) (si_severity s)).

Lemma cstring_spec : forall s, Forall nonzero_byte s -> cstring (s ++ [0]) = Some s.
Proof.
  induction 1 as [|c s Hc Hs IH]; [reflexivity|]. cbn [app cstring]. unfold nonzero_byte in Hc.
  replace (c =? 0) with false by lia. now rewrite IH.
Qed.

Lemma dict_entry_size : forall s, zlen (dict_entry s) = 9 + (zlen (si_file s) + 1) + (zlen (si_fmt s) + 1).
Proof. intros. unfold dict_entry. rewrite !zlen_app, !le_bytes_zlen, !zlen_cons, !zlen_nil. lia. Qed.

Definition cli (s : site) : list Z :=
  le_bytes 1 (si_severity s) ++ le_bytes 4 (si_line s) ++ le_bytes 2 (zlen (si_file s) + 1) ++ le_bytes 2 (zlen (si_fmt s) + 1).

Lemma cli_fields : forall s, site_ok s -> zlen (cli s) = 9 /\
  le_val (slice 0 1 (cli s)) = si_severity s /\ le_val (slice 1 4 (cli s)) = si_line s /\
  le_val (slice 5 2 (cli s)) = zlen (si_file s) + 1 /\ le_val (slice 7 2 (cli s)) = zlen (si_fmt s) + 1 /\
  dict_entry s = cli s ++ (si_file s ++ [0]) ++ (si_fmt s ++ [0]).
Proof.
  intros s (H1 & H2 & H3 & H4 & H5 & H6). pose proof (zlen_nonneg _ (si_file s)). pose proof (zlen_nonneg _ (si_fmt s)).
  unfold cli.
  assert (A : forall n v, 0 <= v < 256 ^ Z.of_nat n -> le_val (le_bytes n v) = v).
  { intros n v Hv. rewrite le_val_le_bytes. now apply Z.mod_small. }
  splits.
  - rewrite !zlen_app, !le_bytes_zlen. lia.
  - rewrite (slice_head 1 (le_bytes 1 (si_severity s))) by reflexivity. apply A. change (256 ^ Z.of_nat 1) with 256. lia.
  - rewrite (slice_app 1 4 (le_bytes 1 (si_severity s))) by reflexivity. apply A. change (256 ^ Z.of_nat 4) with (2 ^ 32). lia.
  - rewrite (app_assoc (le_bytes 1 _)). rewrite slice_app by (rewrite ?zlen_app, ?le_bytes_zlen; reflexivity).
    apply A. change (256 ^ Z.of_nat 2) with (2 ^ 16). lia.
  - rewrite <- (app_nil_r (le_bytes 2 (zlen (si_fmt s) + 1))).
    rewrite (app_assoc (le_bytes 1 _)), (app_assoc (_ ++ _)). rewrite slice_app by (rewrite ?zlen_app, ?le_bytes_zlen; reflexivity).
    apply A. change (256 ^ Z.of_nat 2) with (2 ^ 16). lia.
  - unfold dict_entry. rewrite <- !app_assoc. reflexivity.
Qed.

Lemma dict_loop_spec : forall ss fuel read total rest dict, Forall site_ok ss ->
  total = read + zlen (concat (map dict_entry ss)) -> (length (concat (map dict_entry ss)) < fuel)%nat ->
  dict_fragment_loop fuel read total (File (concat (map dict_entry ss) ++ rest) false) dict
  = Some (File rest false, dict ++ map entry_of ss, true).
Proof.
  induction ss as [|s ss IH]; intros fuel read total rest dict Hs Ht Hf; (destruct fuel as [|fuel]; [lia|]).
  - cbn [map concat] in *. rewrite zlen_nil in Ht. cbn [dict_fragment_loop f_eof app].
    replace (read <? total) with false by lia. cbn [andb negb]. rewrite app_nil_r. reflexivity.
  - inversion Hs as [|? ? Hs1 Hs2]; subst. destruct (cli_fields s Hs1) as (C0 & C1 & C2 & C3 & C4 & C5).
    destruct Hs1 as (H1 & H2 & H3 & H4 & H5 & H6).
    cbn [map concat] in *. rewrite zlen_app, dict_entry_size in *. rewrite app_length in Hf.
    pose proof (zlen_nonneg _ (concat (map dict_entry ss))). pose proof (zlen_nonneg _ (si_file s)). pose proof (zlen_nonneg _ (si_fmt s)).
    cbn [dict_fragment_loop f_eof].
    match goal with |- context [read <? ?t] => replace (read <? t) with true by lia end. cbn [andb negb].
    rewrite C5. rewrite <- !(app_assoc (cli s)). rewrite (fread_app 9) by auto. rewrite C0. change (9 <? 9) with false. cbv iota.
    rewrite C1, C2, C3, C4. rewrite <- !(app_assoc (si_file s ++ [0])).
    rewrite <- (app_assoc (si_fmt s ++ [0])).
    rewrite fread_app by (rewrite zlen_app, zlen_cons, zlen_nil; lia).
    rewrite fread_app by (rewrite zlen_app, zlen_cons, zlen_nil; lia).
    assert (ZF : zlen (si_file s ++ [0]) = zlen (si_file s) + 1) by (rewrite zlen_app, zlen_cons, zlen_nil; lia).
    assert (ZG : zlen (si_fmt s ++ [0]) = zlen (si_fmt s) + 1) by (rewrite zlen_app, zlen_cons, zlen_nil; lia).
    rewrite ZF, ZG.
    rewrite Z.eqb_refl. cbn [negb]. rewrite !cstring_spec by auto.
    rewrite IH; auto; [|lia|].
    + rewrite <- app_assoc. reflexivity.
    + assert (length (dict_entry s) > 0)%nat; [|lia].
      pose proof (dict_entry_size s). unfold zlen in *. lia.
Qed.

Lemma dict_bytes_zlen : forall total ss, zlen (dict_bytes total ss) = 8 + zlen (concat (map dict_entry ss)).
Proof. intros. unfold dict_bytes. rewrite !zlen_app, !le_bytes_zlen. lia. Qed.

Lemma dict_head : forall total ss rest, 0 <= total < 2 ^ 32 -> zlen (dict_bytes total ss) < 2 ^ 30 ->
  let h := le_bytes 4 (1 + 4 * zlen (dict_bytes total ss)) ++ le_bytes 4 total in
  dict_bytes total ss ++ rest = h ++ concat (map dict_entry ss) ++ rest /\
  zlen h = 8 /\ entryType (nth 0 h 0) = ET_LOG_MSGS_OR_DIC /\ le_val (slice 0 4 h) / 4 = zlen (dict_bytes total ss).
Proof.
  intros total ss rest Ht Hz h. pose proof (dict_bytes_zlen total ss) as DZ. pose proof (zlen_nonneg _ (concat (map dict_entry ss))).
  splits.
  - subst h. rewrite DZ. unfold dict_bytes. rewrite <- !app_assoc. reflexivity.
  - subst h. rewrite zlen_app, !le_bytes_zlen. lia.
  - subst h. cbn [le_bytes nth app]. unfold entryType, ET_LOG_MSGS_OR_DIC. bf.
  - subst h. rewrite slice_head by reflexivity. rewrite le_val_le_bytes.
    change (256 ^ Z.of_nat 4) with (2 ^ 32). lia.
Qed.

Lemma readDictionaryFragment_spec : forall conv known total ss rest dict, item_ok conv known (IDict total ss) ->
  readDictionaryFragment (File (item_bytes (IDict total ss) ++ rest) false) dict
  = Some (File rest false, dict ++ map entry_of ss, true).
Proof.
  intros conv known total ss rest dict (Ht & Hs & Hz). cbn [item_bytes].
  destruct (dict_head total ss rest Ht Hz) as (E1 & E2 & E3 & E4). cbv zeta in *.
  set (h := le_bytes 4 (1 + 4 * zlen (dict_bytes total ss)) ++ le_bytes 4 total) in *.
  rewrite E1. unfold readDictionaryFragment. rewrite (fread_app 8) by auto. rewrite E2. change (8 <? 8) with false. cbv iota.
  rewrite E3. change (ET_LOG_MSGS_OR_DIC =? ET_LOG_MSGS_OR_DIC) with true. cbn [negb]. rewrite E4.
  apply dict_loop_spec; auto.
  - apply dict_bytes_zlen.
  - cbn [f_rest]. rewrite app_length. lia.
Qed.

(** ** Extents *)
(** A fragment about to yield the messages [ws]. *)
Definition at_msgs (b : bfrag) (tid : Z) (ws : list wmsg) : Prop :=
  bf_tid b = tid /\
  match ws with
  | [] => bf_more b = false
  | w :: r =>
      bf_more b = true /\ bf_id b = w_id w /\ bf_ts b = w_ts w /\
      load (bf_mem b) (bf_pos b) (length (w_body w ++ wmsgs_bytes (w_ts w) r)) = w_body w ++ wmsgs_bytes (w_ts w) r /\
      bf_end b = bf_pos b + zlen (w_body w ++ wmsgs_bytes (w_ts w) r) /\ bf_end b <= STORAGE
  end.

Definition wm_ok (w : wmsg) : Prop := 0 <= w_id w < 2 ^ 32 /\ 0 <= w_ts w < 2 ^ 64.

Lemma extent_zlen : forall tid np ws,
  zlen (extent_bytes tid np ws) = 5 + zlen (tid_bytes tid) + zlen (wmsgs_bytes 0 ws).
Proof. intros. unfold extent_bytes. rewrite !zlen_app, zlen_cons, zlen_nil, le_bytes_zlen. lia. Qed.

Lemma tid_zlen : forall tid, 0 <= tid < 2 ^ 32 -> 0 <= zlen (tid_bytes tid) <= 4.
Proof.
  intros tid H. unfold tid_bytes. destruct (tid <? 16); [rewrite zlen_nil; lia|]. rewrite ubytes_zlen.
  pose proof (num_bytes_u32 tid H). lia.
Qed.

(** The state after the header of the next message, if any, was read. *)
Lemma next_header : forall m pos last ws, Forall wm_ok ws ->
  load m pos (length (wmsgs_bytes last ws)) = wmsgs_bytes last ws ->
  match ws with
  | [] => wmsgs_bytes last ws = []
  | w :: r => exists pos', decompressLogHeader m pos last = Some (w_id w, w_ts w, pos') /\
      load m pos' (length (w_body w ++ wmsgs_bytes (w_ts w) r)) = w_body w ++ wmsgs_bytes (w_ts w) r /\
      pos + zlen (wmsgs_bytes last ws) = pos' + zlen (w_body w ++ wmsgs_bytes (w_ts w) r) /\ pos + 3 <= pos'
  end.
Proof.
  intros m pos last [|w r] Hw HL; [reflexivity|]. inversion Hw as [|? ? [Hi Ht] _]; subst.
  cbn [wmsgs_bytes] in *. unfold wmsg_bytes in *. rewrite <- app_assoc in *. apply load_split in HL. destruct HL as [L1 L2].
  exists (pos + zlen (hbytes (w_id w) (w_ts w) last)). splits; auto.
  - now apply decompressLogHeader_spec.
  - rewrite zlen_app. lia.
  - pose proof (hbytes_zlen (w_id w) (w_ts w) last Hi). lia.
Qed.

Lemma load_one : forall m p b r, load m p (length (b :: r)) = b :: r -> m p = b /\ load m (p + 1) (length r) = r.
Proof. intros m p b r H. cbn [length load] in H. injection H as H1 H2. auto. Qed.

Lemma readBufferExtent_spec : forall tid np ws rest b, 0 <= tid < 2 ^ 32 -> Forall wm_ok ws ->
  zlen (extent_bytes tid np ws) <= EXTENT_MAX ->
  exists b', readBufferExtent (File (extent_bytes tid np ws ++ rest) false) b = Some (File rest false, b', true, np) /\
    at_msgs b' tid ws.
Proof.
  intros tid np ws rest b Ht Hw Hz. rewrite extent_zlen in Hz. pose proof (tid_zlen tid Ht) as TZ.
  set (hd := 2 + 4 * (if np then 1 else 0) + (if tid <? 16 then 8 + 16 * tid else 16 * num_bytes tid)).
  set (len := 5 + zlen (tid_bytes tid) + zlen (wmsgs_bytes 0 ws)) in *.
  pose proof (zlen_nonneg _ (wmsgs_bytes 0 ws)).
  set (tail := tid_bytes tid ++ wmsgs_bytes 0 ws).
  assert (Zt : zlen tail = len - 5) by (subst tail len; rewrite zlen_app; lia).
  assert (EB : extent_bytes tid np ws = (hd :: le_bytes 4 len) ++ tail) by reflexivity.
  rewrite EB, <- app_assoc. unfold readBufferExtent.
  assert (Zh : zlen (hd :: le_bytes 4 len) = 5) by (rewrite zlen_cons, le_bytes_zlen; reflexivity).
  rewrite (fread_app 5) by auto. rewrite Zh.
  set (m1 := store (bf_mem b) 0 (hd :: le_bytes 4 len)).
  assert (L1 : load m1 0 (length (hd :: le_bytes 4 len)) = hd :: le_bytes 4 len) by apply load_store_same.
  destruct (load_one _ _ _ _ L1) as [M0 L4]. rewrite le_bytes_length in L4. change (0 + 1) with 1 in L4. cbv zeta.
  unfold EXTENT_MAX in Hz.
  rewrite L4, le_val_le_bytes. rewrite (Z.mod_small len) by (change (256 ^ Z.of_nat 4) with (2 ^ 32); lia).
  assert (NB : 1 <= num_bytes tid <= 4) by (apply num_bytes_u32; auto).
  assert (HD : 0 <= hd < 256 /\ bf_get hd 0 2 = 2 /\ bf_get hd 2 1 = (if np then 1 else 0) /\
    bf_get hd 3 1 = (if tid <? 16 then 1 else 0) /\ bf_get hd 4 4 = (if tid <? 16 then tid else num_bytes tid)).
  { subst hd. destruct np, (tid <? 16) eqn:E; splits; bf. }
  destruct HD as (HD & B0 & B2 & B3 & B4).
  unfold entryType. rewrite M0, B0. change (2 =? ET_BUFFER_EXTENT) with true. change (5 <? 5) with false.
  replace (STORAGE <? len) with false by (unfold STORAGE, STAGING_BUFFER_SIZE; lia). cbn [negb orb].
  replace (len <? 5) with false by lia.
  rewrite (fread_app (len - 5)) by auto. rewrite Zt. replace (5 + (len - 5)) with len by lia. rewrite Z.eqb_refl. cbn [negb].
  set (m2 := store m1 5 tail).
  assert (M2 : m2 0 = hd). { subst m2. rewrite store_outside by lia. exact M0. }
  assert (L5 : load m2 5 (length tail) = tail) by apply load_store_same.
  rewrite M2, B2, B3, B4. subst tail. apply load_split in L5. destruct L5 as [LT LW].
  assert (UT : (if negb ((if tid <? 16 then 1 else 0) =? 0) then ((if tid <? 16 then tid else num_bytes tid), 5)
     else unpack_int (Ity false 4) m2 5 (if tid <? 16 then tid else num_bytes tid)) = (tid, 5 + zlen (tid_bytes tid))).
  { unfold tid_bytes in *. destruct (tid <? 16) eqn:E; cbn [Z.eqb negb]; [rewrite zlen_nil; reflexivity|].
    change (0 =? 0) with true. cbn [negb].
    rewrite (unpack_ubytes (Ity false 4) m2 5 tid) by (cbn; auto; lia).
    f_equal. apply cast_id; cbn; auto; lia. }
  rewrite UT.
  assert (WR : negb ((if np then 1 else 0) =? 0) = np) by (destruct np; reflexivity). rewrite WR.
  pose proof (next_header m2 (5 + zlen (tid_bytes tid)) 0 ws Hw LW) as NH.
  destruct ws as [|w r].
  - replace (5 + zlen (tid_bytes tid) =? len) with true by (subst len; cbn [wmsgs_bytes]; rewrite zlen_nil; lia).
    eexists. split; [reflexivity|]. split; reflexivity.
  - destruct NH as (pos' & D & L6 & E6 & P6).
    pose proof (zlen_nonneg _ (w_body w ++ wmsgs_bytes (w_ts w) r)).
    replace (5 + zlen (tid_bytes tid) =? len) with false by lia.
    rewrite D. eexists. split; [reflexivity|]. split; [reflexivity|]. cbn [bf_more bf_id bf_ts bf_mem bf_pos bf_end].
    splits; auto; unfold STORAGE, STAGING_BUFFER_SIZE; lia.
Qed.

(** ** Messages *)
Definition dict_of (known : list site) : list dentry := map entry_of known.

Lemma metadata_spec : forall known i s mc, nth_error known i = Some s ->
  createMicroCode (si_fmt s) (si_file s) (si_line s) (si_severity s) = Some mc ->
  metadata_at (dict_of known) i = Some mc.
Proof.
  induction known as [|s0 known IH]; intros [|i] s mc H E; try discriminate H; cbn [dict_of map metadata_at].
  - injection H as ->. cbn [entry_of de_mc]. now rewrite E.
  - now apply (IH i s).
Qed.

Lemma microcode_fields : forall fmt file line level mc, createMicroCode fmt file line level = Some mc ->
  mc_file mc = file /\ mc_line mc = line /\ mc_level mc = level.
Proof.
  intros fmt file line level mc H. unfold createMicroCode in H. destruct (mc_scan _ _ _ _ _ _ _) as [r|]; [|discriminate].
  destruct (sc_frags r); injection H as <-; auto.
Qed.

Lemma decompressNext_spec : forall conv known b tid f r,
  at_msgs b tid (map fm_w (f :: r)) -> Forall (fmsg_ok conv known) (f :: r) ->
  exists b' dm, decompressNext conv (dict_of known) b = Some (b', Some dm) /\
    at_msgs b' tid (map fm_w r) /\ (forall cp, line_of (EvMsg cp dm) = show cp tid f) /\
    (bf_more b' = true -> bf_pos b + 3 <= bf_pos b' <= bf_end b' /\ bf_end b' = bf_end b).
Proof.
  intros conv known b tid f r (A0 & A1 & A2 & A3 & A4 & A5 & A6) Hf. cbn [map] in *.
  inversion Hf as [|? ? (Hi & Ht & Hn & Hd) Hr]; subst.
  destruct (written_decodes _ _ _ _ Hd) as (mc & EM & HP).
  apply load_split in A4. destruct A4 as [L1 L2]. rewrite zlen_app in A5.
  set (B := w_body (fm_w f)) in *. set (R := wmsgs_bytes (w_ts (fm_w f)) (map fm_w r)) in *.
  pose proof (zlen_nonneg _ B). pose proof (zlen_nonneg _ R).
  destruct (HP (bf_mem b) (bf_pos b) STORAGE L1 ltac:(lia)) as (pushed & P). fold B in P.
  unfold decompressNext. replace (bf_end b <? bf_pos b) with false by lia. rewrite A1. cbn [orb negb].
  rewrite A2, (metadata_spec known _ _ mc Hn EM), P. cbv zeta.
  destruct (microcode_fields _ _ _ _ _ EM) as (F1 & F2 & F3).
  assert (W : Forall wm_ok (map fm_w r)).
  { apply Forall_forall. intros w Hw. apply in_map_iff in Hw. destruct Hw as (g & <- & Hg).
    rewrite Forall_forall in Hr. destruct (Hr g Hg) as (G1 & G2 & _). split; auto. }
  pose proof (next_header (bf_mem b) (bf_pos b + zlen B) (w_ts (fm_w f)) (map fm_w r) W L2) as NH.
  destruct r as [|g r]; cbn [map] in *.
  - replace (zlen R) with 0 in * by (unfold R; rewrite NH; reflexivity).
    replace (bf_end b <=? bf_pos b + zlen B) with true by lia.
    eexists _, _. split; [reflexivity|]. splits; auto.
    + split; reflexivity.
    + intro cp. unfold line_of, show. cbn [dm_ts dm_tid dm_file dm_line dm_level dm_text]. rewrite A3, F1, F2, F3. reflexivity.
    + cbn [bf_more]. discriminate.
  - destruct NH as (pos' & D & L6 & E6 & P6). fold R in E6.
    match type of L6 with load _ _ (length ?x) = _ => pose proof (zlen_nonneg _ x) end.
    replace (bf_end b <=? bf_pos b + zlen B) with false by lia.
    rewrite A3. rewrite D. eexists _, _. split; [reflexivity|]. splits; auto.
    + split; [reflexivity|]. cbn [bf_more bf_id bf_ts bf_mem bf_pos bf_end]. splits; auto; lia.
    + intro cp. unfold line_of, show. cbn [dm_ts dm_tid dm_file dm_line dm_level dm_text]. rewrite F1, F2, F3. reflexivity.
    + cbn [bf_more bf_pos bf_end]. lia.
Qed.

Lemma drain_spec : forall conv known cp tid ms b fuel,
  at_msgs b tid (map fm_w ms) -> Forall (fmsg_ok conv known) ms ->
  (ms <> [] -> bf_end b - bf_pos b + 1 < Z.of_nat fuel) -> (0 < fuel)%nat ->
  exists b' evs, drain_fragment conv fuel cp (dict_of known) b = Some (b', evs) /\
    map line_of evs = map (show cp tid) ms /\ bf_more b' = false /\ msgs_in evs = zlen ms.
Proof.
  intros conv known cp tid. induction ms as [|f ms IH]; intros b fuel A Hf Hfu H0; (destruct fuel as [|fuel]; [lia|]);
    cbn [drain_fragment].
  - destruct A as [_ A]. cbn [map] in A. rewrite A. exists b, []. splits; reflexivity || auto.
  - destruct (decompressNext_spec conv known b tid f ms A Hf) as (b' & dm & E & A' & LN & PM).
    assert (BB : 0 <= bf_end b - bf_pos b).
    { destruct A as (_ & _ & _ & _ & _ & A5 & _). match type of A5 with _ = _ + zlen ?x => pose proof (zlen_nonneg _ x) end. lia. }
    destruct A as (_ & A1 & _). rewrite A1, E.
    specialize (Hfu ltac:(discriminate)).
    inversion Hf as [|? ? _ Hms]; subst.
    destruct (IH b' fuel A' Hms) as (b2 & evs & D & M1 & M2 & M3).
    + intro Hne. destruct ms as [|g ms]; [congruence|]. destruct A' as (_ & A2 & _). destruct (PM A2). lia.
    + lia.
    + rewrite D. exists b2, (EvMsg cp dm :: evs). splits; auto.
      * cbn [map]. rewrite M1. f_equal. apply LN.
      * unfold msgs_in in *. cbn [filter]. rewrite !zlen_cons. lia.
Qed.

(** ** Items *)
Definition type_of (it : item) : Z :=
  match it with
  | IPad _ => ET_INVALID
  | IDict _ _ => ET_LOG_MSGS_OR_DIC
  | IExtent _ _ _ => ET_BUFFER_EXTENT
  | ICheckpoint _ _ => ET_CHECKPOINT
  end.

Lemma item_head : forall conv known it, item_ok conv known it -> is_pad it = false ->
  exists b r, item_bytes it = b :: r /\ entryType b = type_of it.
Proof.
  intros conv known [bs|total ss|tid np ms|junk cp] H Hp; [discriminate| | |]; cbn [item_bytes type_of].
  - unfold dict_bytes. cbn [le_bytes app]. eexists _, _. split; [reflexivity|].
    pose proof (zlen_nonneg _ (concat (map dict_entry ss))).
    unfold entryType, ET_LOG_MSGS_OR_DIC. bf.
  - destruct H as (Ht & _). eexists _, _. split; [reflexivity|]. pose proof (num_bytes_u32 tid Ht).
    unfold entryType, ET_BUFFER_EXTENT. destruct np, (tid <? 16) eqn:E; bf.
  - destruct H as (Hj & _). eexists _, _. split; [reflexivity|]. unfold entryType, ET_CHECKPOINT. bf.
Qed.

Lemma pad_type : forall b, is_byte b -> b mod 4 = 0 -> entryType b = ET_INVALID.
Proof. intros b Hb H. unfold entryType, ET_INVALID. bf. Qed.

(** What follows the items starts a non-padding item, or there is nothing. *)
Definition starts (tail : list Z) : Prop :=
  match tail with [] => True | b :: _ => entryType b <> ET_INVALID end.

Lemma firstn_cons : forall A k (b : A) r, (0 < k)%nat -> exists r', firstn k (b :: r) = b :: r'.
Proof. intros A [|k] b r H; [lia|]. eexists. reflexivity. Qed.

Lemma type_not_invalid : forall it, is_pad it = false -> type_of it <> ET_INVALID.
Proof. intros [?|? ?|? ? ?|? ?] H; try discriminate H; unfold type_of, ET_INVALID, ET_LOG_MSGS_OR_DIC, ET_BUFFER_EXTENT, ET_CHECKPOINT; lia. Qed.

Lemma torn_starts : forall conv known tail, torn conv known tail -> starts tail.
Proof.
  intros conv known tail [->|(it & k & H & Hp & Hk & ->)]; [exact I|].
  destruct (item_head _ _ _ H Hp) as (b & r & E & T). rewrite E.
  destruct (firstn_cons _ k b r (proj1 Hk)) as (r' & ->). cbn [starts]. rewrite T. now apply type_not_invalid.
Qed.

Fixpoint drop_pads (items : list item) : list item :=
  match items with
  | IPad _ :: r => drop_pads r
  | _ => items
  end.

Lemma skip_bytes : forall bs fuel rest, Forall (fun b => is_byte b /\ b mod 4 = 0) bs -> (length bs <= fuel)%nat ->
  exists fuel', (fuel' + length bs = fuel)%nat /\
  skip_padding fuel (File (bs ++ rest) false) = skip_padding fuel' (File rest false).
Proof.
  induction bs as [|b bs IH]; intros fuel rest Hb Hf; [exists fuel; split; [cbn; lia|reflexivity]|].
  cbn [length] in *. inversion Hb as [|? ? [B1 B2] Hb']; subst. destruct fuel as [|fuel]; [lia|].
  destruct (IH fuel rest Hb' ltac:(lia)) as (fuel' & F1 & F2). exists fuel'. split; [lia|].
  cbn [skip_padding f_eof app peekEntryType f_rest]. rewrite (pad_type b B1 B2).
  change (ET_INVALID =? ET_INVALID) with true. cbv iota. unfold fgetc. cbn [f_rest f_eof]. exact F2.
Qed.

Lemma starts_app : forall conv known items tail, items_ok conv known items -> drop_pads items = items ->
  starts tail -> starts (file_bytes items ++ tail).
Proof.
  intros conv known [|it items] tail Hi Hd Ht; [exact Ht|].
  assert (Hp : is_pad it = false).
  { destruct it; try reflexivity. cbn [drop_pads] in Hd.
    assert (length (drop_pads items) <= length items)%nat.
    { clear. induction items as [|[?|? ?|? ? ?|? ?] items IH]; cbn [drop_pads length]; lia. }
    rewrite Hd in H. cbn [length] in H. lia. }
  destruct Hi as [Hi _]. destruct (item_head _ _ _ Hi Hp) as (b & r & E & T).
  unfold file_bytes. cbn [map concat]. rewrite E. cbn [app starts]. rewrite T. now apply type_not_invalid.
Qed.

Lemma drop_pads_idem : forall items, drop_pads (drop_pads items) = drop_pads items.
Proof. induction items as [|[?|? ?|? ? ?|? ?] items IH]; cbn [drop_pads]; auto. Qed.

Lemma drop_pads_ok : forall conv items known, items_ok conv known items -> items_ok conv known (drop_pads items).
Proof.
  induction items as [|[?|? ?|? ? ?|? ?] items IH]; intros known H; cbn [drop_pads]; auto.
  destruct H as [_ H]. apply IH. exact H.
Qed.

Lemma drop_pads_lines : forall items cp, file_lines cp (drop_pads items) = file_lines cp items.
Proof. induction items as [|[?|? ?|? ? ?|? ?] items IH]; intros cp0; cbn [drop_pads file_lines]; auto. Qed.

Lemma drop_pads_knows : forall items known, knows_all known (drop_pads items) = knows_all known items.
Proof. induction items as [|[?|? ?|? ? ?|? ?] items IH]; intros known; cbn [drop_pads]; auto. rewrite IH. reflexivity. Qed.

Lemma drop_pads_length : forall items, (length (drop_pads items) <= length items)%nat /\
  (length (file_bytes (drop_pads items)) <= length (file_bytes items))%nat.
Proof.
  induction items as [|[?|? ?|? ? ?|? ?] items IH]; cbn [drop_pads]; try (split; lia).
  unfold file_bytes in *. cbn [map concat length]. rewrite app_length. lia.
Qed.

Lemma skip_items : forall conv items known fuel tail, items_ok conv known items -> starts tail ->
  (length (file_bytes items ++ tail) < fuel)%nat ->
  skip_padding fuel (File (file_bytes items ++ tail) false) =
  File (file_bytes (drop_pads items) ++ tail) (match file_bytes (drop_pads items) ++ tail with [] => true | _ => false end).
Proof.
  induction items as [|it items IH]; intros known fuel tail Hi Ht Hf.
  - cbn [drop_pads file_bytes map concat app] in *. destruct fuel as [|fuel]; [lia|].
    cbn [skip_padding f_eof]. unfold peekEntryType. cbn [f_rest]. destruct tail as [|b tail].
    + change (ET_INVALID =? ET_INVALID) with true. cbv iota. unfold fgetc. cbn [f_rest]. destruct fuel; reflexivity.
    + cbn [starts] in Ht. replace (entryType b =? ET_INVALID) with false by lia. reflexivity.
  - destruct (is_pad it) eqn:Hp.
    + destruct it as [bs|? ?|? ? ?|? ?]; try discriminate Hp. destruct Hi as [Hb Hi]. cbn [knows] in Hi.
      unfold file_bytes in *. cbn [map concat item_bytes drop_pads] in *. rewrite <- app_assoc in *. rewrite app_length in Hf.
      destruct (skip_bytes bs fuel (concat (map item_bytes items) ++ tail) Hb ltac:(lia)) as (fuel' & F1 & F2).
      rewrite F2. apply (IH known); auto. lia.
    + assert (drop_pads (it :: items) = it :: items) as -> by (destruct it; [discriminate| | |]; reflexivity).
      assert (S : starts (file_bytes (it :: items) ++ tail)).
      { eapply starts_app; eauto. destruct it; [discriminate| | |]; reflexivity. }
      destruct fuel as [|fuel]; [lia|]. cbn [skip_padding f_eof]. unfold peekEntryType. cbn [f_rest].
      destruct Hi as [Hi _]. destruct (item_head _ _ _ Hi Hp) as (b & r & E & T).
      destruct (file_bytes (it :: items) ++ tail) as [|b' l] eqn:EL.
      * unfold file_bytes in EL. cbn [map concat] in EL. rewrite E in EL. discriminate EL.
      * cbn [starts] in S. replace (entryType b' =? ET_INVALID) with false by lia. reflexivity.
Qed.

(** ** Torn items *)
Lemma torn_checkpoint : forall conv known junk cp k cp0 dict, item_ok conv known (ICheckpoint junk cp) ->
  (k < length (item_bytes (ICheckpoint junk cp)))%nat ->
  readDictionary cp0 dict (File (firstn k (item_bytes (ICheckpoint junk cp))) false) = Some (File [] true, cp0, dict, false).
Proof.
  intros conv known junk cp k cp0 dict (_ & _ & _ & Hl & _) Hk.
  pose proof (checkpoint_zlen junk (cp_rdtsc cp) (cp_unixTime cp) (cp_cps cp) Hl) as Z1. cbn [item_bytes] in *.
  set (B := checkpoint_bytes _ _ _ _) in *.
  assert (Z2 : zlen (firstn k B) < 33) by (unfold zlen in *; rewrite firstn_length; lia).
  unfold readDictionary. rewrite fread_short by auto. replace (zlen (firstn k B) <? 33) with true by lia. reflexivity.
Qed.

Lemma torn_extent : forall conv known tid np ms k b, item_ok conv known (IExtent tid np ms) ->
  (k < length (item_bytes (IExtent tid np ms)))%nat ->
  exists b', readBufferExtent (File (firstn k (item_bytes (IExtent tid np ms))) false) b = Some (File [] true, b', false, false) /\
    bf_more b' = false.
Proof.
  intros conv known tid np ms k b (Ht & Hz & _) Hk. cbn [item_bytes] in *.
  set (ws := map fm_w ms) in *. rewrite extent_zlen in Hz. pose proof (tid_zlen tid Ht) as TZ.
  assert (LE : zlen (extent_bytes tid np ws) = 5 + zlen (tid_bytes tid) + zlen (wmsgs_bytes 0 ws)) by apply extent_zlen.
  pose proof (zlen_nonneg _ (wmsgs_bytes 0 ws)).
  set (len := 5 + zlen (tid_bytes tid) + zlen (wmsgs_bytes 0 ws)) in *.
  unfold EXTENT_MAX in Hz.
  set (hd := 2 + 4 * (if np then 1 else 0) + (if tid <? 16 then 8 + 16 * tid else 16 * num_bytes tid)).
  set (tail := tid_bytes tid ++ wmsgs_bytes 0 ws).
  assert (Zt : zlen tail = len - 5) by (subst tail len; rewrite zlen_app; lia).
  assert (EB : extent_bytes tid np ws = (hd :: le_bytes 4 len) ++ tail) by reflexivity.
  assert (Zh : zlen (hd :: le_bytes 4 len) = 5) by (rewrite zlen_cons, le_bytes_zlen; reflexivity).
  destruct (Nat.lt_ge_cases k 5) as [K|K].
  - assert (Z2 : zlen (firstn k (extent_bytes tid np ws)) < 5) by (unfold zlen; rewrite firstn_length; lia).
    unfold readBufferExtent. rewrite fread_short by auto. cbv zeta.
    replace (zlen (firstn k (extent_bytes tid np ws)) <? 5) with true by lia. rewrite orb_true_r. cbn [orb].
    eexists. split; reflexivity.
  - rewrite EB in *. rewrite firstn_app.
    assert (L5 : length (hd :: le_bytes 4 len) = 5%nat) by reflexivity.
    rewrite firstn_all2 by lia. rewrite L5. set (t := firstn (k - 5) tail).
    assert (Z3 : zlen t < len - 5).
    { subst t. unfold zlen. rewrite firstn_length. rewrite app_length, L5 in Hk. unfold zlen in Zt. lia. }
    unfold readBufferExtent. rewrite (fread_app 5) by auto. rewrite Zh.
    set (m1 := store (bf_mem b) 0 (hd :: le_bytes 4 len)).
    assert (L1 : load m1 0 (length (hd :: le_bytes 4 len)) = hd :: le_bytes 4 len) by apply load_store_same.
    destruct (load_one _ _ _ _ L1) as [M0 L4]. rewrite le_bytes_length in L4. change (0 + 1) with 1 in L4. cbv zeta.
    rewrite L4, le_val_le_bytes. rewrite (Z.mod_small len) by (change (256 ^ Z.of_nat 4) with (2 ^ 32); lia).
    assert (NB : 1 <= num_bytes tid <= 4) by (apply num_bytes_u32; auto).
    assert (B0 : bf_get hd 0 2 = 2) by (subst hd; destruct np, (tid <? 16) eqn:E; bf).
    unfold entryType. rewrite M0, B0. change (2 =? ET_BUFFER_EXTENT) with true. change (5 <? 5) with false.
    replace (STORAGE <? len) with false by (unfold STORAGE, STAGING_BUFFER_SIZE; lia). cbn [negb orb].
    replace (len <? 5) with false by lia.
    rewrite fread_short by lia. replace (5 + zlen t =? len) with false by lia. cbn [negb].
    eexists. split; reflexivity.
Qed.

Lemma torn_dict_loop : forall ss k fuel read total dict, Forall site_ok ss ->
  total = read + zlen (concat (map dict_entry ss)) -> (k < length (concat (map dict_entry ss)))%nat -> (k < fuel)%nat ->
  exists dict', dict_fragment_loop fuel read total (File (firstn k (concat (map dict_entry ss))) false) dict
  = Some (File [] true, dict', false).
Proof.
  induction ss as [|s ss IH]; intros k fuel read total dict Hs Ht Hk Hf; [cbn in Hk; lia|].
  destruct fuel as [|fuel]; [lia|]. inversion Hs as [|? ? Hs1 Hs2]; subst. pose proof Hs1 as Hs0.
  destruct (cli_fields s Hs1) as (C0 & C1 & C2 & C3 & C4 & C5).
  destruct Hs1 as (H1 & H2 & H3 & H4 & H5 & H6).
  cbn [map concat] in *. rewrite zlen_app, dict_entry_size in *. rewrite app_length in Hk.
  pose proof (zlen_nonneg _ (concat (map dict_entry ss))). pose proof (zlen_nonneg _ (si_file s)). pose proof (zlen_nonneg _ (si_fmt s)).
  set (C := concat (map dict_entry ss)) in *.
  assert (ZF : zlen (si_file s ++ [0]) = zlen (si_file s) + 1) by (rewrite zlen_app, zlen_cons, zlen_nil; lia).
  assert (ZG : zlen (si_fmt s ++ [0]) = zlen (si_fmt s) + 1) by (rewrite zlen_app, zlen_cons, zlen_nil; lia).
  set (F := si_file s ++ [0]) in *. set (G := si_fmt s ++ [0]) in *.
  cbn [dict_fragment_loop f_eof].
  match goal with |- context [read <? ?t] => replace (read <? t) with true by lia end. cbn [andb negb].
  pose proof (dict_entry_size s) as DS.
  destruct (Nat.lt_ge_cases k 9) as [K|K].
  { assert (Z2 : zlen (firstn k (dict_entry s ++ C)) < 9) by (unfold zlen; rewrite firstn_length; lia).
    rewrite fread_short by auto. replace (zlen (firstn k (dict_entry s ++ C)) <? 9) with true by lia. eexists. reflexivity. }
  assert (EK : firstn k (dict_entry s ++ C) = cli s ++ firstn (k - 9) (F ++ G ++ C)).
  { rewrite C5, <- !app_assoc. rewrite firstn_app. rewrite firstn_all2 by (unfold zlen in C0; lia).
    reflexivity. }
  rewrite EK. rewrite (fread_app 9) by auto. rewrite C0. change (9 <? 9) with false. cbv iota.
  rewrite C1, C2, C3, C4.
  assert (Z5 : Z.of_nat (k - 9) < zlen F + zlen G + zlen C).
  { rewrite C5, !app_length in Hk. unfold zlen in *. lia. }
  destruct (Z_lt_le_dec (Z.of_nat (k - 9)) (zlen F)) as [K2|K2].
  { set (t := firstn (k - 9) (F ++ G ++ C)). assert (Zt : zlen t = Z.of_nat (k - 9)).
    { subst t. unfold zlen in *. rewrite firstn_length, !app_length. lia. }
    rewrite fread_short by lia. rewrite fread_short by (rewrite zlen_nil; lia).
    rewrite zlen_nil. rewrite Zt.
    assert (9 + Z.of_nat (k - 9) + 0 =? 9 + (zlen (si_file s) + 1) + (zlen (si_fmt s) + 1) = false) as -> by (apply Z.eqb_neq; lia).
    cbn [negb]. eexists. reflexivity. }
  assert (EK2 : firstn (k - 9) (F ++ G ++ C) = F ++ firstn (k - 9 - length F) (G ++ C)).
  { rewrite firstn_app. rewrite firstn_all2 by (unfold zlen in *; lia). reflexivity. }
  rewrite EK2. rewrite fread_app by lia.
  destruct (Z_lt_le_dec (Z.of_nat (k - 9 - length F)) (zlen G)) as [K3|K3].
  { set (t := firstn (k - 9 - length F) (G ++ C)). assert (Zt : zlen t = Z.of_nat (k - 9 - length F)).
    { subst t. unfold zlen in *. rewrite firstn_length, !app_length. lia. }
    rewrite fread_short by lia. rewrite Zt, ZF.
    match goal with |- context [negb (?a =? ?b)] => assert (a =? b = false) as -> by (apply Z.eqb_neq; lia) end.
    cbn [negb]. eexists. reflexivity. }
  assert (EK3 : firstn (k - 9 - length F) (G ++ C) = G ++ firstn (k - 9 - length F - length G) C).
  { rewrite firstn_app. rewrite firstn_all2 by (unfold zlen in *; lia). reflexivity. }
  rewrite EK3. rewrite fread_app by lia. rewrite ZF, ZG, Z.eqb_refl. cbn [negb].
  unfold F, G. rewrite !cstring_spec by auto. fold F G.
  apply IH; auto; unfold zlen in *; lia.
Qed.

Lemma torn_dict : forall conv known total ss k dict, item_ok conv known (IDict total ss) ->
  (k < length (item_bytes (IDict total ss)))%nat ->
  exists dict', readDictionaryFragment (File (firstn k (item_bytes (IDict total ss))) false) dict
  = Some (File [] true, dict', false).
Proof.
  intros conv known total ss k dict (Ht & Hs & Hz) Hk. cbn [item_bytes] in *.
  destruct (dict_head total ss [] Ht Hz) as (E1 & E2 & E3 & E4). cbv zeta in *. rewrite !app_nil_r in E1.
  set (h := le_bytes 4 (1 + 4 * zlen (dict_bytes total ss)) ++ le_bytes 4 total) in *.
  unfold readDictionaryFragment.
  destruct (Nat.lt_ge_cases k 8) as [K|K].
  { assert (Z2 : zlen (firstn k (dict_bytes total ss)) < 8) by (unfold zlen; rewrite firstn_length; lia).
    rewrite fread_short by auto. replace (zlen (firstn k (dict_bytes total ss)) <? 8) with true by lia. eexists. reflexivity. }
  assert (EK : firstn k (dict_bytes total ss) = h ++ firstn (k - 8) (concat (map dict_entry ss))).
  { rewrite E1, firstn_app. rewrite firstn_all2 by (unfold zlen in E2; lia). reflexivity. }
  rewrite EK, (fread_app 8) by auto. rewrite E2. change (8 <? 8) with false. cbv iota.
  rewrite E3. change (ET_LOG_MSGS_OR_DIC =? ET_LOG_MSGS_OR_DIC) with true. cbn [negb]. rewrite E4.
  apply torn_dict_loop; auto.
  - apply dict_bytes_zlen.
  - rewrite E1, app_length in Hk. unfold zlen in E2. lia.
  - cbn [f_rest]. rewrite firstn_length. rewrite E1, app_length in Hk. unfold zlen in E2. lia.
Qed.

(** ** Whole files *)
Lemma file_cons : forall it items tail, file_bytes (it :: items) ++ tail = item_bytes it ++ file_bytes items ++ tail.
Proof. intros. unfold file_bytes. cbn [map concat]. now rewrite app_assoc. Qed.

Lemma item_nonempty : forall conv known it, item_ok conv known it -> is_pad it = false -> (0 < length (item_bytes it))%nat.
Proof. intros conv known it H Hp. destruct (item_head _ _ _ H Hp) as (b & r & -> & _). cbn [length]. lia. Qed.

Lemma drop_pads_cases : forall conv items known, items_ok conv known items ->
  drop_pads items = [] \/
  exists it r, drop_pads items = it :: r /\ is_pad it = false /\ (0 < length (item_bytes it))%nat.
Proof.
  intros conv. induction items as [|it items IH]; intros known H; [now left|]. destruct H as [H1 H2].
  destruct (is_pad it) eqn:Hp.
  - destruct it; try discriminate Hp. cbn [drop_pads knows] in *. eauto.
  - right. pose proof (item_nonempty _ _ _ H1 Hp). destruct it; [discriminate| | |]; cbn [drop_pads]; eauto.
Qed.

Lemma peek_item : forall conv known it rest, item_ok conv known it -> is_pad it = false ->
  peekEntryType (File (item_bytes it ++ rest) false) = (type_of it, File (item_bytes it ++ rest) false).
Proof.
  intros conv known it rest H Hp. destruct (item_head _ _ _ H Hp) as (b & r & -> & T).
  unfold peekEntryType. cbn [app f_rest]. now rewrite T.
Qed.

Lemma peek_torn : forall conv known it k, item_ok conv known it -> is_pad it = false -> (0 < k)%nat ->
  peekEntryType (File (firstn k (item_bytes it)) false) = (type_of it, File (firstn k (item_bytes it)) false).
Proof.
  intros conv known it k H Hp Hk. destruct (item_head _ _ _ H Hp) as (b & r & -> & T).
  destruct (firstn_cons _ k b r Hk) as (r' & ->). unfold peekEntryType. cbn [f_rest]. now rewrite T.
Qed.

Lemma fmsgs_wm : forall conv known ms, Forall (fmsg_ok conv known) ms -> Forall wm_ok (map fm_w ms).
Proof. induction 1 as [|f ms (H1 & H2 & _) _ IH]; constructor; auto. split; auto. Qed.

Lemma messages_app : forall a b, messages (a ++ b) = messages a ++ messages b.
Proof. intros. unfold messages. now rewrite map_app, concat_app. Qed.

Lemma messages_map : forall cp tid ms, zlen (messages (map (show cp tid) ms)) = zlen ms.
Proof.
  induction ms as [|m ms IH]; [reflexivity|]. unfold messages in *. cbn [map concat show app]. rewrite !zlen_cons. lia.
Qed.

Lemma unordered_spec : forall conv n items, (length items <= n)%nat -> forall known cp op pr bfm fr b fuel tail,
  items_ok conv known items -> torn conv (knows_all known items) tail ->
  (length (file_bytes items ++ tail) + 1 < fuel)%nat ->
  exists d' b' evs,
    unordered_loop conv fuel (Decoder op (File (file_bytes items ++ tail) false) pr bfm true cp fr (dict_of known)) b
    = Some (d', b', evs) /\
    map line_of evs = file_lines cp items /\ d_printed d' = pr + zlen (messages (file_lines cp items)) /\
    (tail = [] -> d_good d' = true) /\ d_open d' = op /\ d_bf d' = bfm /\ d_free d' = fr.
Proof.
  intros conv. induction n as [|n IH]; intros items Hn known cp op pr bfm fr b fuel tail Hi Ht Hf.
  - (* no items *)
    destruct items; [|cbn [length] in Hn; lia]. cbn [file_bytes map concat app file_lines knows_all fold_left] in *.
    change (zlen (messages [])) with 0. rewrite Z.add_0_r.
    destruct fuel as [|[|fuel]]; try lia. cbn [unordered_loop d_file f_eof d_good negb orb d_printed d_cp d_dict d_open d_bf d_free].
    destruct Ht as [->|(it & k & Hit & Hp & Hk & ->)].
    + cbn [peekEntryType f_rest]. change (ET_INVALID =? ET_BUFFER_EXTENT) with false. change (ET_INVALID =? ET_CHECKPOINT) with false.
      change (ET_INVALID =? ET_LOG_MSGS_OR_DIC) with false. cbn [skip_padding f_eof unordered_loop d_file orb].
      eexists _, _, _. splits; reflexivity.
    + pose proof (item_nonempty _ _ _ Hit Hp) as Hne.
      rewrite (peek_torn conv known) by (auto; lia).
      assert (NT : firstn k (item_bytes it) <> []).
      { destruct (item_bytes it); [cbn in *; lia|]. destruct (firstn_cons _ k z l (proj1 Hk)) as (? & ->). discriminate. }
      destruct it as [?|total ss|tid np ms|junk cpx]; [discriminate Hp| | |]; cbn [type_of].
      * change (ET_LOG_MSGS_OR_DIC =? ET_BUFFER_EXTENT) with false. change (ET_LOG_MSGS_OR_DIC =? ET_CHECKPOINT) with false.
        change (ET_LOG_MSGS_OR_DIC =? ET_LOG_MSGS_OR_DIC) with true. cbv iota.
        destruct (torn_dict conv known total ss k (dict_of known) Hit (proj2 Hk)) as (dict' & ->).
        cbn [unordered_loop d_file f_eof orb]. eexists _, _, _. splits; try reflexivity. intros; contradiction.
      * change (ET_BUFFER_EXTENT =? ET_BUFFER_EXTENT) with true. cbv iota.
        destruct (torn_extent conv known tid np ms k b Hit (proj2 Hk)) as (b' & -> & _).
        cbn [unordered_loop d_file f_eof orb]. eexists _, _, _. splits; try reflexivity.
      * change (ET_CHECKPOINT =? ET_BUFFER_EXTENT) with false. change (ET_CHECKPOINT =? ET_CHECKPOINT) with true. cbv iota.
        rewrite (torn_checkpoint conv known) by (auto; lia).
        cbn [unordered_loop d_file f_eof orb]. eexists _, _, _. splits; try reflexivity. intros; contradiction.
  - destruct items as [|it items]; [apply (IH []); auto; cbn [length]; lia|].
    cbn [length] in Hn. destruct Hi as [Hit Hi]. unfold knows_all in Ht. cbn [fold_left] in Ht. fold (knows_all (knows known it) items) in Ht.
    destruct (is_pad it) eqn:Hp.
    + (* padding *)
      destruct it as [bs|? ?|? ? ?|? ?]; try discriminate Hp. cbn [knows file_lines] in *.
      destruct bs as [|p bs]; [apply (IH items); auto; lia|].
      destruct fuel as [|fuel]; [lia|].
      rewrite file_cons in *. cbn [item_bytes] in *. inversion Hit as [|? ? [P1 P2] Hbs]; subst.
      cbn [unordered_loop d_file f_eof d_good negb orb d_printed d_cp d_dict d_open d_bf d_free].
      unfold peekEntryType at 1. cbn [f_rest app]. rewrite (pad_type p P1 P2).
      change (ET_INVALID =? ET_BUFFER_EXTENT) with false. change (ET_INVALID =? ET_CHECKPOINT) with false.
      change (ET_INVALID =? ET_LOG_MSGS_OR_DIC) with false. cbv iota.
      assert (ES : skip_padding (S (length (p :: bs ++ file_bytes items ++ tail))) (File (p :: bs ++ file_bytes items ++ tail) false) =
        File (file_bytes (drop_pads items) ++ tail) (match file_bytes (drop_pads items) ++ tail with [] => true | _ => false end)).
      { pose proof (skip_items conv (IPad (p :: bs) :: items) known (S (length (p :: bs ++ file_bytes items ++ tail))) tail) as K.
        rewrite file_cons in K. cbn [item_bytes app drop_pads] in K. apply K.
        - split; [now constructor|exact Hi].
        - eapply torn_starts; eauto.
        - lia. }
      rewrite ES.
      pose proof (drop_pads_length items) as [DL1 DL2].
      destruct (drop_pads_cases _ _ _ Hi) as [D0|(it & r & D1 & D2 & D3)].
      * rewrite <- drop_pads_lines, D0. cbn [file_bytes map concat app file_lines].
        rewrite <- drop_pads_knows, D0 in Ht.
        destruct tail as [|t tail].
        -- destruct fuel as [|fuel]; [cbn [app length] in Hf; lia|]. cbn [unordered_loop d_file f_eof orb].
           eexists _, _, _. splits; try reflexivity. cbn [d_printed]. change (zlen (messages [])) with 0. lia.
        -- change (t :: tail) with (file_bytes [] ++ t :: tail).
           pose proof (IH [] ltac:(cbn; lia) known cp op pr bfm fr b fuel (t :: tail) I Ht) as K.
           cbn [file_lines] in K. apply K. cbn [file_bytes map concat app length] in *.
           rewrite !app_length in Hf. cbn [length] in Hf. lia.
      * assert (match file_bytes (drop_pads items) ++ tail with [] => true | _ => false end = false) as ->.
        { rewrite D1, file_cons. destruct (item_bytes it); [cbn in D3; lia|reflexivity]. }
        rewrite <- drop_pads_lines. apply IH; [lia|now apply drop_pads_ok|now rewrite drop_pads_knows|].
        cbn [app length] in Hf. rewrite !app_length in *. lia.
    + pose proof (item_nonempty _ _ _ Hit Hp) as Hne.
      destruct fuel as [|fuel]; [lia|]. rewrite file_cons in *. rewrite app_length in Hf.
      cbn [unordered_loop d_file f_eof d_good negb orb d_printed d_cp d_dict d_open d_bf d_free].
      rewrite (peek_item conv known) by auto.
      destruct it as [?|total ss|tid np ms|junk cpx]; [discriminate Hp| | |]; cbn [type_of knows file_lines] in *.
      * change (ET_LOG_MSGS_OR_DIC =? ET_BUFFER_EXTENT) with false. change (ET_LOG_MSGS_OR_DIC =? ET_CHECKPOINT) with false.
        change (ET_LOG_MSGS_OR_DIC =? ET_LOG_MSGS_OR_DIC) with true. cbv iota.
        rewrite (readDictionaryFragment_spec conv known) by auto.
        assert (dict_of known ++ map entry_of ss = dict_of (known ++ ss)) as -> by (unfold dict_of; now rewrite map_app).
        apply IH; auto; lia.
      * change (ET_BUFFER_EXTENT =? ET_BUFFER_EXTENT) with true. cbv iota.
        destruct Hit as (T1 & T2 & T3). cbn [item_bytes] in *.
        destruct (readBufferExtent_spec tid np (map fm_w ms) (file_bytes items ++ tail) b T1 (fmsgs_wm _ _ _ T3) T2) as (b' & -> & A).
        cbv iota.
        destruct (drain_spec conv known cp tid ms b' (S (S (Z.to_nat (bf_end b' - bf_pos b')))) A T3) as (b2 & evs & -> & E1 & E2 & E3).
        { intros _. lia. } { lia. }
        destruct (IH items ltac:(lia) known cp op (pr + msgs_in evs) bfm fr b2 fuel tail Hi Ht ltac:(lia)) as (d' & b3 & evs' & -> & F1 & F2 & F3 & F4 & F5 & F6).
        eexists _, _, _. splits; try reflexivity; auto.
        -- now rewrite map_app, E1, F1.
        -- rewrite F2, messages_app, zlen_app, messages_map. lia.
      * change (ET_CHECKPOINT =? ET_BUFFER_EXTENT) with false. change (ET_CHECKPOINT =? ET_CHECKPOINT) with true. cbv iota.
        rewrite (readDictionary_spec conv known) by auto.
        destruct (IH items ltac:(lia) [] cpx op pr bfm fr b fuel tail Hi Ht ltac:(lia)) as (d' & b3 & evs' & E & F1 & F2 & F3 & F4 & F5 & F6).
        change (dict_of []) with (@nil dentry) in E. rewrite E.
        eexists _, _, _. splits; try reflexivity; auto.
        cbn [map line_of]. now rewrite F1.
Qed.

(** The search for the next extent: afterwards the fragment holds messages [ms]
    that come next, or the file is exhausted. *)
Lemma next_extent_spec : forall conv n items, (length items <= n)%nat -> forall known cp op pr bfm fr fuel tail,
  items_ok conv known items -> torn conv (knows_all known items) tail -> bf_more bfm = false ->
  (length (file_bytes items ++ tail) + 1 < fuel)%nat ->
  exists d' evs r,
    next_extent fuel (Decoder op (File (file_bytes items ++ tail) false) pr bfm true cp fr (dict_of known)) = Some (d', evs, r) /\
    Forall (fun e => e = EvNewExecution) evs /\ d_printed d' = pr /\ d_open d' = op /\ d_free d' = fr /\
    ((exists known' items' tid m ms,
        r = false /\ items_ok conv known' items' /\ torn conv (knows_all known' items') tail /\
        at_msgs (d_bf d') tid (map fm_w (m :: ms)) /\ Forall (fmsg_ok conv known') (m :: ms) /\
        d_file d' = File (file_bytes items' ++ tail) false /\ d_good d' = true /\ d_dict d' = dict_of known' /\
        (length (file_bytes items') < length (file_bytes items))%nat /\
        file_lines cp items = map line_of evs ++ map (show (d_cp d') tid) (m :: ms) ++ file_lines (d_cp d') items') \/
     (bf_more (d_bf d') = false /\ f_eof (d_file d') || negb (d_good d') = true /\ (tail = [] -> d_good d' = true) /\
      file_lines cp items = map line_of evs)).
Proof.
  intros conv. induction n as [|n IH]; intros items Hn known cp op pr bfm fr fuel tail Hi Ht Hb Hf.
  - destruct items; [|cbn [length] in Hn; lia]. cbn [file_bytes map concat app file_lines knows_all fold_left] in *.
    destruct fuel as [|[|fuel]]; try lia. cbn [next_extent d_file f_eof d_good negb orb d_printed d_cp d_dict d_open d_bf d_free].
    rewrite ?Hb. cbn [orb].
    destruct Ht as [->|(it & k & Hit & Hp & Hk & ->)].
    + cbn [peekEntryType f_rest]. change (ET_INVALID =? ET_BUFFER_EXTENT) with false. change (ET_INVALID =? ET_CHECKPOINT) with false.
      change (ET_INVALID =? ET_LOG_MSGS_OR_DIC) with false. cbn [skip_padding f_eof next_extent d_file orb d_bf]. rewrite ?Hb. cbn [orb].
      eexists _, _, _. splits; try reflexivity; try (apply Forall_nil). right. splits; try reflexivity; auto.
    + pose proof (item_nonempty _ _ _ Hit Hp) as Hne.
      rewrite (peek_torn conv known) by (auto; lia).
      assert (NT : firstn k (item_bytes it) <> []).
      { destruct (item_bytes it); [cbn in *; lia|]. destruct (firstn_cons _ k z l (proj1 Hk)) as (? & ->). discriminate. }
      destruct it as [?|total ss|tid np ms|junk cpx]; [discriminate Hp| | |]; cbn [type_of].
      * change (ET_LOG_MSGS_OR_DIC =? ET_BUFFER_EXTENT) with false. change (ET_LOG_MSGS_OR_DIC =? ET_CHECKPOINT) with false.
        change (ET_LOG_MSGS_OR_DIC =? ET_LOG_MSGS_OR_DIC) with true. cbv iota.
        destruct (torn_dict conv known total ss k (dict_of known) Hit (proj2 Hk)) as (dict' & ->).
        cbn [next_extent d_file f_eof orb d_bf]. rewrite ?Hb. cbn [orb]. eexists _, _, _. splits; try reflexivity; try (apply Forall_nil).
        right. splits; try reflexivity; auto; try (intros; contradiction).
      * change (ET_BUFFER_EXTENT =? ET_BUFFER_EXTENT) with true. cbv iota.
        destruct (torn_extent conv known tid np ms k bfm Hit (proj2 Hk)) as (b' & -> & B').
        eexists _, _, _. splits; try reflexivity; try (apply Forall_nil). right. splits; try reflexivity; auto; try (intros; contradiction).
      * change (ET_CHECKPOINT =? ET_BUFFER_EXTENT) with false. change (ET_CHECKPOINT =? ET_CHECKPOINT) with true. cbv iota.
        rewrite (torn_checkpoint conv known) by (auto; lia).
        eexists _, _, _. splits; try reflexivity; try (apply Forall_nil). right. splits; try reflexivity; auto; try (intros; contradiction).
  - destruct items as [|it items]; [apply (IH []); auto; cbn [length]; lia|].
    cbn [length] in Hn. destruct Hi as [Hit Hi]. unfold knows_all in Ht. cbn [fold_left] in Ht. fold (knows_all (knows known it) items) in Ht.
    destruct (is_pad it) eqn:Hp.
    + destruct it as [bs|? ?|? ? ?|? ?]; try discriminate Hp. cbn [knows file_lines] in *.
      destruct bs as [|p bs]; [apply (IH items); auto; lia|].
      destruct fuel as [|fuel]; [lia|].
      rewrite file_cons in *. cbn [item_bytes] in *. inversion Hit as [|? ? [P1 P2] Hbs]; subst.
      cbn [next_extent d_file f_eof d_good negb orb d_printed d_cp d_dict d_open d_bf d_free]. rewrite ?Hb. cbn [orb].
      unfold peekEntryType at 1. cbn [f_rest app]. rewrite (pad_type p P1 P2).
      change (ET_INVALID =? ET_BUFFER_EXTENT) with false. change (ET_INVALID =? ET_CHECKPOINT) with false.
      change (ET_INVALID =? ET_LOG_MSGS_OR_DIC) with false. cbv iota.
      assert (ES : skip_padding (S (length (p :: bs ++ file_bytes items ++ tail))) (File (p :: bs ++ file_bytes items ++ tail) false) =
        File (file_bytes (drop_pads items) ++ tail) (match file_bytes (drop_pads items) ++ tail with [] => true | _ => false end)).
      { pose proof (skip_items conv (IPad (p :: bs) :: items) known (S (length (p :: bs ++ file_bytes items ++ tail))) tail) as K.
        rewrite file_cons in K. cbn [item_bytes app drop_pads] in K. apply K.
        - split; [now constructor|exact Hi].
        - eapply torn_starts; eauto.
        - lia. }
      rewrite ES.
      pose proof (drop_pads_length items) as [DL1 DL2].
      assert (DL3 : (length (file_bytes items) < length (file_bytes (IPad (p :: bs) :: items)))%nat).
      { unfold file_bytes. cbn [map concat item_bytes]. rewrite app_length. cbn [length]. lia. }
      destruct (drop_pads_cases _ _ _ Hi) as [D0|(it & r & D1 & D2 & D3)].
      * rewrite <- drop_pads_lines, D0. cbn [file_bytes map concat app file_lines].
        rewrite <- drop_pads_knows, D0 in Ht.
        destruct tail as [|t tail].
        -- destruct fuel as [|fuel]; [cbn [app length] in Hf; lia|]. cbn [next_extent d_file f_eof orb d_bf]. rewrite ?Hb. cbn [orb].
           eexists _, _, _. splits; try reflexivity; try (apply Forall_nil). right. splits; try reflexivity; auto.
        -- change (t :: tail) with (file_bytes [] ++ t :: tail).
           destruct (IH [] ltac:(cbn; lia) known cp op pr bfm fr fuel (t :: tail) I Ht Hb) as (d' & evs & r & F1 & FN & F2 & F3 & F4 & F5).
           { cbn [file_bytes map concat app length] in *. rewrite !app_length in Hf. cbn [length] in Hf. lia. }
           exists d', evs, r. splits; auto. destruct F5 as [F5|F5]; [|right; exact F5].
           destruct F5 as (k' & i' & tid & m & ms & G1 & G2 & G3 & G4 & G5 & G6 & G7 & G8 & G9 & G10). cbn in G9. lia.
      * assert (match file_bytes (drop_pads items) ++ tail with [] => true | _ => false end = false) as ->.
        { rewrite D1, file_cons. destruct (item_bytes it); [cbn in D3; lia|reflexivity]. }
        rewrite <- drop_pads_lines.
        destruct (IH (drop_pads items) ltac:(lia) known cp op pr bfm fr fuel tail) as (d' & evs & r' & F1 & FN & F2 & F3 & F4 & F5); auto.
        { now apply drop_pads_ok. } { now rewrite drop_pads_knows. }
        { cbn [app length] in Hf. rewrite !app_length in *. lia. }
        exists d', evs, r'. splits; auto. destruct F5 as [F5|F5]; [left|right; exact F5].
        destruct F5 as (k' & i' & tid & m & ms & G1 & G2 & G3 & G4 & G5 & G6 & G7 & G8 & G9 & G10).
        exists k', i', tid, m, ms. splits; auto; lia.
    + pose proof (item_nonempty _ _ _ Hit Hp) as Hne.
      destruct fuel as [|fuel]; [lia|]. rewrite file_cons in *. rewrite app_length in Hf.
      assert (DL3 : (length (file_bytes items) < length (file_bytes (it :: items)))%nat).
      { unfold file_bytes. cbn [map concat]. rewrite app_length. lia. }
      cbn [next_extent d_file f_eof d_good negb orb d_printed d_cp d_dict d_open d_bf d_free]. rewrite ?Hb. cbn [orb].
      rewrite (peek_item conv known) by auto.
      destruct it as [?|total ss|tid np ms|junk cpx]; [discriminate Hp| | |]; cbn [type_of knows file_lines] in *.
      * change (ET_LOG_MSGS_OR_DIC =? ET_BUFFER_EXTENT) with false. change (ET_LOG_MSGS_OR_DIC =? ET_CHECKPOINT) with false.
        change (ET_LOG_MSGS_OR_DIC =? ET_LOG_MSGS_OR_DIC) with true. cbv iota.
        rewrite (readDictionaryFragment_spec conv known) by auto.
        assert (dict_of known ++ map entry_of ss = dict_of (known ++ ss)) as -> by (unfold dict_of; now rewrite map_app).
        destruct (IH items ltac:(lia) (known ++ ss) cp op pr bfm fr fuel tail Hi Ht Hb ltac:(lia)) as (d' & evs & r' & F1 & FN & F2 & F3 & F4 & F5).
        exists d', evs, r'. splits; auto. destruct F5 as [F5|F5]; [left|right; exact F5].
        destruct F5 as (k' & i' & tid & m & ms & G1 & G2 & G3 & G4 & G5 & G6 & G7 & G8 & G9 & G10).
        exists k', i', tid, m, ms. splits; auto; lia.
      * change (ET_BUFFER_EXTENT =? ET_BUFFER_EXTENT) with true. cbv iota.
        destruct Hit as (T1 & T2 & T3). cbn [item_bytes] in *.
        destruct (readBufferExtent_spec tid np (map fm_w ms) (file_bytes items ++ tail) bfm T1 (fmsgs_wm _ _ _ T3) T2) as (b' & -> & A).
        cbv iota. destruct ms as [|m ms].
        -- destruct A as [_ A]. cbn [map] in A.
           destruct (IH items ltac:(lia) known cp op pr b' fr fuel tail Hi Ht A ltac:(lia)) as (d' & evs & r' & F1 & FN & F2 & F3 & F4 & F5).
           exists d', evs, r'. splits; auto. destruct F5 as [F5|F5]; [left|right; exact F5].
           destruct F5 as (k' & i' & tid' & m & ms & G1 & G2 & G3 & G4 & G5 & G6 & G7 & G8 & G9 & G10).
           exists k', i', tid', m, ms. splits; auto; lia.
        -- destruct fuel as [|fuel]; [lia|]. cbn [next_extent d_bf].
           assert (bf_more b' = true) as -> by (destruct A as (_ & A & _); exact A). cbn [orb].
           eexists _, _, _. splits; try reflexivity; try (apply Forall_nil). left. exists known, items, tid, m, ms. splits; auto.
      * change (ET_CHECKPOINT =? ET_BUFFER_EXTENT) with false. change (ET_CHECKPOINT =? ET_CHECKPOINT) with true. cbv iota.
        rewrite (readDictionary_spec conv known) by auto.
        destruct (IH items ltac:(lia) [] cpx op pr bfm fr fuel tail Hi Ht Hb ltac:(lia)) as (d' & evs & r' & E & FN & F2 & F3 & F4 & F5).
        change (dict_of []) with (@nil dentry) in E. rewrite E.
        eexists _, _, _. splits; try reflexivity; auto. destruct F5 as [F5|F5].
        -- left. destruct F5 as (k' & i' & tid & m & ms & G1 & G2 & G3 & G4 & G5 & G6 & G7 & G8 & G9 & G10).
           exists k', i', tid, m, ms. splits; auto; try lia. cbn [map line_of app]. now rewrite G10.
        -- right. destruct F5 as (G1 & G2 & G3 & G4). splits; auto. cbn [map line_of]. now rewrite G4.
Qed.
