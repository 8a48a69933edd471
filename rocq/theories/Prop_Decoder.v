(** C14, C16, C18, C19, C23, C24: reading log files back. *)
From Verif Require Import Base BaseProofs Packer PackerProofs LogHeader Chars Fmt FmtProofs FrontFmt Prop_FrontFmt MicroCode Prop_MicroCode
  Args Printf ArgsProofs Prop_Args Decode DecodeProofs Prop_Message Encoder Wire EncoderProofs Prop_Encoder Decoder FileSpec DecoderProofs.

(** C14.  The staged message [x] is an execution of its statement for which
    printf produces [text]; the sizes of its strings are the recorded ones. *)
Definition said (conv : rconv -> list Z) (sites : list site) (x : smsg) (text : list Z) : Prop :=
  exists s ps n, nth_error sites (Z.to_nat (sm_id x)) = Some s /\
    si_fmt s = render ps /\ si_params s = map report (params ps) /\
    defined conv ps (sm_args x) text /\ backend_ok ps /\ Forall2 harmless (params ps) (sm_args x) /\
    getArgSizes (si_params s) (2 ^ 64 - 1) (sm_args x) = Some (n, sm_ns x).

Definition said_line (cp : checkpoint) (tid : Z) (sites : list site) (p : smsg * list Z) : option oline :=
  match nth_error sites (Z.to_nat (sm_id (fst p))) with
  | Some s => Some (LMsg (Shown cp (sm_id (fst p)) (sm_ts (fst p)) tid (si_file s) (si_line s) (si_severity s) (snd p)))
  | None => None
  end.

Lemma compressed_written : forall conv sites x text w s, said conv sites x text ->
  nth_error sites (Z.to_nat (sm_id x)) = Some s -> compressed s x w -> written conv s w text.
Proof.
  intros conv sites x text w s (s' & ps & n & N & Es & Ep & D & HB & HH & G) Hs (_ & _ & B).
  assert (s' = s) by congruence. subst s'. exists ps, (sm_args x). splits; auto.
  destruct D as (Hok & Hpi & Hw & Hf & Hlen & HR). pose proof (kstr_class_ok ps Hok Hpi) as Hc.
  assert (HA : Forall2 arg_ok (params ps) (sm_args x)).
  { clear - Hc Hw Hf HH. revert Hc Hw Hf. induction HH as [|k a ks as' Hh HH IH]; intros Hc Hw Hf; constructor.
    - inversion Hc; inversion Hw; inversion Hf; subst. unfold arg_ok. repeat split; auto.
      + destruct k; cbn in *; auto; discriminate.
      + intros [-> | ->]; exact Hh.
    - inversion Hc; inversion Hw; inversion Hf; subst. apply IH; auto. }
  destruct (run_image conv ps (sm_args x) text None Hok HA HR) as (im & EX).
  destruct (recorded (params ps) (sm_args x) None (2 ^ 64 - 1) im Hc Hw Hf ltac:(lia) ltac:(cbn; lia) EX)
    as (ns & G' & I & S1 & S2 & S3).
  rewrite Ep in *. rewrite G in G'. assert (ns = sm_ns x) by congruence. subst ns. rewrite <- S3. exact B.
Qed.

Lemma nth_firstn : forall A k n (l : list A), (n < k)%nat -> nth_error (firstn k l) n = nth_error l n.
Proof. induction k; intros [|n] [|a l] H; try lia; cbn; auto. apply IHk. lia. Qed.

(** The messages of an extent as messages of a file. *)
Lemma staged_fmsgs : forall conv sites known cp tid ms ws texts, compressed_all sites ms ws ->
  Forall (fun x => 0 <= sm_id x < 2 ^ 32 /\ 0 <= sm_ts x < 2 ^ 64) ms -> Forall (fun x => sm_id x < Z.of_nat known) ms ->
  Forall2 (said conv sites) ms texts ->
  exists fs, map fm_w fs = ws /\ Forall (fmsg_ok conv (firstn known sites)) fs /\
    map Some (map (show cp tid) fs) = map (said_line cp tid sites) (combine ms texts).
Proof.
  intros conv sites known cp tid. induction ms as [|x ms IH]; intros [|w ws] [|text texts] Hc Ho Hk Hs;
    try contradiction Hc; try (inversion Hs; fail).
  - exists []. splits; constructor.
  - destruct Hc as [(s & Es & Hx) Hc]. inversion Ho as [|? ? O1 O2]; inversion Hk as [|? ? K1 K2]; inversion Hs as [|? ? ? ? S1 S2]; subst.
    destruct (IH ws texts Hc O2 K2 S2) as (fs & F1 & F2 & F3).
    pose proof Hx as (W1 & W2 & _).
    exists (FMsg w s text :: fs). splits.
    + cbn [map fm_w]. now rewrite F1.
    + constructor; auto. unfold fmsg_ok. cbn [fm_w fm_site fm_text]. rewrite W1, W2. splits; try tauto; try lia.
      * rewrite nth_firstn by lia. exact Es.
      * eapply compressed_written; eauto.
    + cbn [map combine]. rewrite F3. f_equal. unfold said_line, show. cbn [fst snd fm_w fm_site fm_text]. rewrite Es, W1, W2. reflexivity.
Qed.

Lemma Forall2_firstn : forall A B (R : A -> B -> Prop) n l l', Forall2 R l l' -> Forall2 R (firstn n l) (firstn n l').
Proof. induction n; intros l l' H; [constructor|]. destruct H; cbn; constructor; auto. Qed.

Lemma staged_ranges : forall sites ms bs, staged_all sites ms bs ->
  Forall (fun x => 0 <= sm_id x < 2 ^ 32 /\ 0 <= sm_ts x < 2 ^ 64) ms.
Proof.
  intros sites ms bs H. induction H as [|x b ms bs (s & _ & (H1 & H2 & _) & _) _ IH]; constructor; auto.
Qed.

Lemma Forall_firstn : forall A (P : A -> Prop) n l, Forall P l -> Forall P (firstn n l).
Proof. induction n; intros l H; [constructor|]. destruct H; cbn; constructor; auto. Qed.

Theorem C14_extent_roundtrip : forall conv sites known ms bs texts min from nbytes tid np e e' read k stale rest cp,
  staged_at sites min from ms bs -> Forall2 (said conv sites) ms texts -> mem_bytes min -> enc_ok e -> 9 <= e_space e ->
  0 <= tid < 2 ^ 32 -> 0 <= nbytes <= zlen (concat bs) ->
  encodeLogMsgs e min from nbytes tid np (firstn known sites) = (e', read, k) ->
  e_wp e' - e_wp e <= EXTENT_MAX ->
  let out := load (e_mem e') (e_wp e) (Z.to_nat (e_wp e' - e_wp e)) in
  read = zlen (concat (firstn (Z.to_nat k) bs)) /\ 0 <= k <= zlen ms /\
  exists b b' evs,
    readBufferExtent (File (out ++ rest) false) stale = Some (File rest false, b, true, np) /\ bf_tid b = tid /\
    drain_fragment conv (S (S (Z.to_nat (bf_end b - bf_pos b)))) cp (dict_of (firstn known sites)) b = Some (b', evs) /\
    bf_more b' = false /\
    map Some (map line_of evs) = map (said_line cp tid sites) (combine (firstn (Z.to_nat k) ms) (firstn (Z.to_nat k) texts)).
Proof.
  intros conv sites known ms bs texts min from nbytes tid np e e' read k stale rest cp Hst Hsaid Hmin He H9 Ht Hn E Hz out.
  pose proof (encodeLogMsgs_spec sites known ms bs min from nbytes tid np e e' read k Hst Hmin He Ht Hn E) as [(A & _)|S]; [lia|].
  destruct S as (n & ws & _ & A1 & A2 & A3 & A4 & A5 & A6 & _ & _ & _ & _ & _ & _ & _ & A14 & _).
  subst k. rewrite Nat2Z.id. split; [exact A4|]. split; [unfold zlen; lia|].
  destruct Hst as [Hst _]. pose proof (staged_ranges _ _ _ Hst) as Hr.
  destruct (staged_fmsgs conv sites known cp tid (firstn n ms) ws (firstn n texts)) as (fs & F1 & F2 & F3); auto.
  { now apply Forall_firstn. } { now apply Forall2_firstn. }
  assert (EO : out = extent_bytes tid np ws).
  { subst out. rewrite A6. replace (e_wp e + zlen (extent_bytes tid np ws) - e_wp e) with (zlen (extent_bytes tid np ws)) by lia.
    unfold zlen. rewrite Nat2Z.id. exact A5. }
  rewrite EO, <- F1.
  destruct (readBufferExtent_spec tid np (map fm_w fs) rest stale Ht (fmsgs_wm _ _ _ F2)) as (b & B1 & B2).
  { rewrite F1. lia. }
  destruct (drain_spec conv (firstn known sites) cp tid fs b (S (S (Z.to_nat (bf_end b - bf_pos b)))) B2 F2) as (b' & evs & D1 & D2 & D3 & _).
  { intros _. lia. } { lia. }
  exists b, b', evs. splits; auto; try apply B2. rewrite D2. exact F3.
Qed.
Print Assumptions C14_extent_roundtrip.

(** C16.  The dictionary is written by a sequence of calls, each with its own
    output buffer and seeing the first [k] statements; [pos] counts the
    statements persisted. *)
Fixpoint write_dict (sites : list site) (pos : Z) (cs : list (enc * nat)) : list (list Z) * Z :=
  match cs with
  | [] => ([], pos)
  | (e, k) :: r =>
      let '(e', pos', _) := encodeNewDictionaryEntries e pos (firstn k sites) in
      let '(bss, last) := write_dict sites pos' r in
      (load (e_mem e') (e_wp e) (Z.to_nat (e_wp e' - e_wp e)) :: bss, last)
  end.

(** The decompressor reads what is not empty. *)
Fixpoint read_dict (bss : list (list Z)) (f : file) (dict : list dentry) : option (file * list dentry) :=
  match bss with
  | [] => Some (f, dict)
  | [] :: r => read_dict r f dict
  | _ :: r => match readDictionaryFragment f dict with
              | Some (f', dict', true) => read_dict r f' dict'
              | _ => None
              end
  end.

Definition dict_call_ok (c : enc * nat) : Prop :=
  mem_bytes (e_mem (fst c)) /\ e_wp (fst c) <= e_hi (fst c) <= e_end (fst c) /\ e_space (fst c) < 2 ^ 30.

(** Statements are only added. *)
Fixpoint growing (from : nat) (cs : list (enc * nat)) : Prop :=
  match cs with
  | [] => True
  | (_, k) :: r => (from <= k)%nat /\ growing k r
  end.

Definition recovered (s : site) (de : dentry) : Prop :=
  de_fmt de = si_fmt s /\
  de_mc de = createMicroCode (si_fmt s) (si_file s) (si_line s) (si_severity s) /\
  forall mc, de_mc de = Some mc -> mc_file mc = si_file s /\ mc_line mc = si_line s /\ mc_level mc = si_severity s.

Lemma recovered_map : forall ss, Forall2 recovered ss (map entry_of ss).
Proof.
  induction ss as [|s ss IH]; constructor; auto. unfold recovered, entry_of. cbn [de_fmt de_mc]. splits; auto.
  intros mc H. exact (microcode_fields _ _ _ _ _ H).
Qed.

Lemma firstn_add_skip : forall A a b (l : list A), firstn (a + b) l = firstn a l ++ firstn b (skipn a l).
Proof. intros. apply firstn_plus. Qed.

Lemma skipn_firstn_sub : forall A a b c (l : list A), (a + b <= c)%nat -> firstn b (skipn a (firstn c l)) = firstn b (skipn a l).
Proof.
  induction a as [|a IH]; intros b c l H.
  - cbn [skipn]. rewrite firstn_firstn. now rewrite Nat.min_l by lia.
  - destruct c as [|c]; [lia|]. destruct l; [cbn; now rewrite !firstn_nil|]. cbn [firstn skipn]. apply IH. lia.
Qed.

Lemma firstn_mono : forall A j k (l : list A), (j <= k)%nat ->
  zlen (firstn j l) <= zlen (firstn k l) <= zlen l /\ zlen (firstn k l) <= Z.of_nat k.
Proof. intros. unfold zlen. rewrite !firstn_length. lia. Qed.

Lemma write_read : forall sites cs pos from rest bss last, Forall site_ok sites -> Forall dict_call_ok cs -> growing from cs ->
  0 <= pos <= zlen (firstn from sites) -> zlen sites < 2 ^ 32 -> write_dict sites pos cs = (bss, last) ->
  pos <= last <= zlen sites /\
  read_dict bss (File (concat bss ++ rest) false) (map entry_of (firstn (Z.to_nat pos) sites))
  = Some (File rest false, map entry_of (firstn (Z.to_nat last) sites)).
Proof.
  intros sites. induction cs as [|[e k] cs IH]; intros pos from rest bss last Hs Hc Hg Hp Hl E.
  - cbn [write_dict] in E. assert (bss = [] /\ last = pos) as [-> ->] by (split; congruence).
    split; [pose proof (firstn_mono _ from from sites (le_n _)); lia|reflexivity].
  - cbn [write_dict] in E. destruct (encodeNewDictionaryEntries e pos (firstn k sites)) as [[e' pos'] ret] eqn:E1.
    destruct (write_dict sites pos' cs) as [bss' last'] eqn:E2.
    set (b0 := load (e_mem e') (e_wp e) (Z.to_nat (e_wp e' - e_wp e))) in *.
    assert (bss = b0 :: bss' /\ last = last') as [-> ->] by (split; congruence). clear E.
    inversion Hc as [|? ? (C1 & C2 & C3) Hc']; subst. cbn [fst] in *. destruct Hg as [Hk Hg].
    pose proof (firstn_mono _ from k sites Hk) as F1.
    apply dictionary_spec in E1; auto; try lia.
    2:{ apply Forall_forall. intros s Hin. assert (In s sites) as Hin'.
        { rewrite <- (firstn_skipn k sites). apply in_or_app. now left. }
        rewrite Forall_forall in Hs. destruct (Hs s Hin') as (_ & _ & S3 & S4 & _).
        split; eapply Forall_impl; try eassumption; unfold nonzero_byte, is_byte; intros; cbn in *; lia. }
    destruct E1 as [(D1 & -> & -> & ->)|(D1 & D2 & D3)].
    + assert (b0 = []) as -> by (subst b0; rewrite Z.sub_diag; reflexivity).
      cbn [concat app read_dict]. apply (IH pos k rest); auto. lia.
    + cbv zeta in D3. destruct D3 as (D3 & D4 & D5 & _ & D6 & _ & D7 & _).
      set (news := firstn (Z.to_nat (pos' - pos)) (skipn (Z.to_nat pos) (firstn k sites))) in *.
      assert (B0 : b0 = dict_bytes pos' news).
      { subst b0. rewrite D4. replace (e_wp e + zlen (dict_bytes pos' news) - e_wp e) with (zlen (dict_bytes pos' news)) by lia.
        unfold zlen. rewrite Nat2Z.id. exact D3. }
      destruct (IH pos' k rest bss' last' Hs Hc' Hg ltac:(lia) Hl E2) as [L1 L2]. split; [lia|].
      assert (NE : news = firstn (Z.to_nat (pos' - pos)) (skipn (Z.to_nat pos) sites)) by (apply skipn_firstn_sub; lia).
      pose proof (dict_bytes_zlen pos' news) as DZ. pose proof (zlen_nonneg _ (concat (map dict_entry news))).
      assert (RF : readDictionaryFragment (File (item_bytes (IDict pos' news) ++ concat bss' ++ rest) false)
          (map entry_of (firstn (Z.to_nat pos) sites)) =
        Some (File (concat bss' ++ rest) false, map entry_of (firstn (Z.to_nat pos) sites) ++ map entry_of news, true)).
      { apply (readDictionaryFragment_spec (fun _ => []) []). unfold item_ok. splits; try lia.
        - rewrite NE. apply Forall_firstn. rewrite <- (firstn_skipn (Z.to_nat pos) sites) in Hs. apply Forall_app in Hs. apply Hs.
        - assert (zlen (dict_bytes pos' news) <= e_space e).
          { unfold e_space. lia. }
          lia. }
      cbn [item_bytes] in RF. rewrite <- B0 in RF. cbn [concat]. rewrite <- app_assoc.
      assert (NB : b0 <> []) by (rewrite B0; intro X; rewrite X, zlen_nil in DZ; lia).
      cbn [read_dict]. destruct b0 as [|z b0']; [congruence|]. rewrite RF.
      rewrite <- map_app, NE, <- firstn_add_skip.
      replace (Z.to_nat pos + Z.to_nat (pos' - pos))%nat with (Z.to_nat pos') by lia. exact L2.
Qed.

Theorem C16_dictionary_recovered : forall sites cs rest bss last, Forall site_ok sites -> zlen sites < 2 ^ 32 ->
  Forall dict_call_ok cs -> growing 0 cs -> write_dict sites 0 cs = (bss, last) ->
  exists dict, 0 <= last <= zlen sites /\
    read_dict bss (File (concat bss ++ rest) false) [] = Some (File rest false, dict) /\
    Forall2 recovered (firstn (Z.to_nat last) sites) dict.
Proof.
  intros sites cs rest bss last Hs Hl Hc Hg E.
  destruct (write_read sites cs 0 0 rest bss last Hs Hc Hg) as [A B]; auto.
  { cbn [firstn]. rewrite zlen_nil. lia. }
  exists (map entry_of (firstn (Z.to_nat last) sites)). splits; auto; try lia. apply recovered_map.
Qed.
Print Assumptions C16_dictionary_recovered.

(** C18.  Unordered decompression, by a decoder in any state. *)
Lemma open_spec : forall conv d junk cp items tail, item_ok conv [] (ICheckpoint junk cp) ->
  d_open_file d (file_bytes (ICheckpoint junk cp :: items) ++ tail)
  = Some (Decoder true (File (file_bytes items ++ tail) false) 0 (d_bf d) true cp (d_free d) [], true).
Proof. intros conv d junk cp items tail H. unfold d_open_file. rewrite file_cons, (readDictionary_spec conv []) by auto. reflexivity. Qed.

Lemma unordered_file : forall conv d junk cp items tail,
  items_ok conv [] (ICheckpoint junk cp :: items) -> torn conv (knows_all [] items) tail ->
  exists d1 d2 evs n,
    d_open_file d (file_bytes (ICheckpoint junk cp :: items) ++ tail) = Some (d1, true) /\
    decompressUnordered conv d1 = Some (d2, evs, n) /\
    map line_of evs = file_lines cp items /\ (tail = [] -> n = zlen (messages (file_lines cp items)) /\ d_good d2 = true).
Proof.
  intros conv d junk cp items tail [Hc Hi] Ht. eexists. unfold decompressUnordered.
  rewrite (open_spec conv) by auto. cbn [knows] in Hi.
  destruct (allocateBufferFragment (d_free d)) as [b free] eqn:EA.
  destruct (unordered_spec conv (length items) items (le_n _) [] cp true 0 (d_bf d) free b (S (S (length (file_bytes items ++ tail)))) tail Hi Ht ltac:(lia))
    as (d2 & b2 & evs & E & E1 & E2 & E3 & _).
  eexists _, evs, _. split; [reflexivity|]. cbn [d_open negb d_free d_file f_rest d_printed d_bf d_good d_cp d_dict].
  rewrite EA. change (dict_of []) with (@nil dentry) in E. rewrite E. split; [reflexivity|]. split; auto.
  intro HT. cbn [d_good]. rewrite (E3 HT), E2. split; [lia|reflexivity].
Qed.

Theorem C18_unordered_complete : forall conv d items, file_ok conv items ->
  exists d1 d2 evs,
    d_open_file d (file_bytes items) = Some (d1, true) /\
    decompressUnordered conv d1 = Some (d2, evs, zlen (messages (lines_of items))) /\
    map line_of evs = lines_of items /\ d_good d2 = true.
Proof.
  intros conv d [|[?|? ?|? ? ?|junk cp] items] H; try contradiction H.
  destruct (unordered_file conv d junk cp items [] H (or_introl eq_refl)) as (d1 & d2 & evs & n & E1 & E2 & E3 & E4).
  rewrite app_nil_r in E1. destruct (E4 eq_refl) as [-> E5]. exists d1, d2, evs. splits; auto.
Qed.
Print Assumptions C18_unordered_complete.

(** C19.  Calling getNextLogStatement until it returns false. *)
Fixpoint iterate (conv : rconv -> list Z) (calls : nat) (d : decoder) : option (decoder * list event * bool) :=
  match calls with
  | O => Some (d, [], true)
  | S n =>
    match getNextLogStatement conv d with
    | None => None
    | Some (d', evs, false) => Some (d', evs, false)
    | Some (d', evs, true) =>
      match iterate conv n d' with
      | None => None
      | Some (d'', evs', r) => Some (d'', evs ++ evs', r)
      end
    end
  end.

Lemma no_messages : forall evs, Forall (fun e => e = EvNewExecution) evs -> messages (map line_of evs) = [].
Proof. induction 1 as [|e evs -> _ IH]; [reflexivity|]. exact IH. Qed.

Lemma messages_cons : forall cp tid m ls, messages (show cp tid m :: ls) = match show cp tid m with LMsg s => [s] | LNewExecution => [] end ++ messages ls.
Proof. reflexivity. Qed.

Lemma iterate_S : forall conv n d, iterate conv (S n) d =
  match getNextLogStatement conv d with
  | None => None
  | Some (d', evs, false) => Some (d', evs, false)
  | Some (d', evs, true) =>
    match iterate conv n d' with
    | None => None
    | Some (d'', evs', r) => Some (d'', evs ++ evs', r)
    end
  end.
Proof. reflexivity. Qed.

Lemma iterate_spec : forall conv n known cp pr bfm fr items tail tid ms,
  length (messages (map (show cp tid) ms ++ file_lines cp items)) = n ->
  at_msgs bfm tid (map fm_w ms) -> Forall (fmsg_ok conv known) ms ->
  items_ok conv known items -> torn conv (knows_all known items) tail ->
  exists d' evs, iterate conv (S n) (Decoder true (File (file_bytes items ++ tail) false) pr bfm true cp fr (dict_of known)) = Some (d', evs, false) /\
    map line_of evs = map (show cp tid) ms ++ file_lines cp items.
Proof.
  intros conv. induction n as [|n IH]; intros known cp pr bfm fr items tail tid ms Hn A Hms Hi Ht.
  - (* no message is left *)
    destruct ms as [|m ms]; [|cbn [map app] in Hn; rewrite messages_cons in Hn; discriminate Hn].
    assert (M : bf_more bfm = false) by apply A. cbn [map app] in *.
    cbn [iterate]. unfold getNextLogStatement. cbn [d_bf d_open d_file f_eof d_good negb orb f_rest]. rewrite M.
    destruct (next_extent_spec conv (length items) items (le_n _) known cp true pr bfm fr (S (S (length (file_bytes items ++ tail)))) tail Hi Ht M ltac:(lia))
      as (d1 & evs & r & E & EN & E1 & E2 & E3 & E4).
    rewrite E. destruct E4 as [E4|(F1 & F2 & F3 & F4)].
    + destruct E4 as (k' & i' & tid' & m & ms & -> & G2 & G3 & G4 & G5 & G6 & G7 & G8 & G9 & G10).
      rewrite G10, messages_app, app_length in Hn. cbn [map app] in Hn. rewrite messages_cons in Hn. cbn [show app length] in Hn. lia.
    + destruct r.
      * eexists _, _. split; [reflexivity|]. now rewrite F4.
      * unfold next_from, decompressNext. rewrite F1. rewrite orb_true_r.
        eexists _, _. split; [reflexivity|]. rewrite app_nil_r. now rewrite F4.
  - destruct ms as [|m ms].
    + assert (M : bf_more bfm = false) by apply A. cbn [map app] in *.
      rewrite iterate_S. unfold getNextLogStatement. cbn [d_bf d_open d_file f_eof d_good negb orb f_rest]. rewrite M.
      destruct (next_extent_spec conv (length items) items (le_n _) known cp true pr bfm fr (S (S (length (file_bytes items ++ tail)))) tail Hi Ht M ltac:(lia))
        as (d1 & evs & r & E & EN & E1 & E2 & E3 & E4).
      rewrite E. destruct E4 as [E4|(F1 & F2 & F3 & F4)].
      2:{ rewrite F4, no_messages in Hn by auto. discriminate Hn. }
      destruct E4 as (k' & i' & tid' & m & ms & -> & G2 & G3 & G4 & G5 & G6 & G7 & G8 & G9 & G10).
      unfold next_from. rewrite G8, E2, G6, G7, E1, E3.
      destruct (decompressNext_spec conv k' (d_bf d1) tid' m ms G4 G5) as (b' & dm & D1 & D2 & D3 & _). rewrite D1.
      inversion G5 as [|? ? Gm Gms]; subst.
      rewrite G10, messages_app, app_length, no_messages in Hn by auto. cbn [map app length Nat.add] in Hn.
      rewrite messages_cons in Hn. unfold show at 1 in Hn. cbn [app length] in Hn.
      destruct (IH k' (d_cp d1) (d_printed d1 + 1) b' (d_free d1) i' tail tid' ms ltac:(lia) D2 Gms G2 G3) as (d' & evs' & I1 & I2).
      cbv beta iota zeta. rewrite I1.
      eexists _, _. split; [reflexivity|]. rewrite !map_app, I2, G10. cbn [map app]. rewrite D3. rewrite <- app_assoc. reflexivity.
    + assert (M : bf_more bfm = true) by apply A.
      destruct (decompressNext_spec conv known bfm tid m ms A Hms) as (b' & dm & D1 & D2 & D3 & _).
      inversion Hms as [|? ? Gm Gms]; subst. cbn [map app] in Hn. rewrite messages_cons in Hn. unfold show at 1 in Hn. cbn [app length] in Hn.
      destruct (IH known cp (pr + 1) b' fr items tail tid ms ltac:(lia) D2 Gms Hi Ht) as (d' & evs' & I1 & I2).
      rewrite iterate_S. unfold getNextLogStatement. cbn [d_bf]. rewrite M. unfold next_from. cbn [d_bf d_dict]. rewrite D1.
      cbn [d_open d_file d_printed d_good d_cp d_free d_dict]. rewrite I1.
      eexists _, _. split; [reflexivity|]. cbn [map app]. rewrite D3, I2. reflexivity.
Qed.

Lemma iterate_file : forall conv d junk cp items tail, bf_more (d_bf d) = false ->
  items_ok conv [] (ICheckpoint junk cp :: items) -> torn conv (knows_all [] items) tail ->
  exists d1 d2 evs,
    d_open_file d (file_bytes (ICheckpoint junk cp :: items) ++ tail) = Some (d1, true) /\
    iterate conv (S (length (messages (file_lines cp items)))) d1 = Some (d2, evs, false) /\
    map line_of evs = file_lines cp items.
Proof.
  intros conv d junk cp items tail Hb [Hc Hi] Ht. rewrite (open_spec conv) by auto. cbn [knows] in Hi.
  destruct (iterate_spec conv _ [] cp 0 (d_bf d) (d_free d) items tail (bf_tid (d_bf d)) [] eq_refl) as (d2 & evs & E1 & E2); auto.
  - split; [reflexivity|exact Hb].
  - eexists _, d2, evs. split; [reflexivity|]. split; auto.
Qed.

Theorem C19_iterate_complete : forall conv d items, file_ok conv items -> bf_more (d_bf d) = false ->
  exists d1 d2 evs,
    d_open_file d (file_bytes items) = Some (d1, true) /\
    iterate conv (S (length (messages (lines_of items)))) d1 = Some (d2, evs, false) /\
    map line_of evs = lines_of items.
Proof.
  intros conv d [|[?|? ?|? ? ?|junk cp] items] H Hb; try contradiction H.
  destruct (iterate_file conv d junk cp items [] Hb H (or_introl eq_refl)) as (d1 & d2 & evs & E).
  rewrite app_nil_r in E. eauto.
Qed.
Print Assumptions C19_iterate_complete.

(** Both ways visit the same messages. *)
Corollary C19_same_as_unordered : forall conv items, file_ok conv items ->
  exists d1 d2 d3 evs evs' n,
    d_open_file new_decoder (file_bytes items) = Some (d1, true) /\
    decompressUnordered conv d1 = Some (d2, evs, n) /\
    iterate conv (S (Z.to_nat n)) d1 = Some (d3, evs', false) /\
    map line_of evs = map line_of evs'.
Proof.
  intros conv items H. destruct (C18_unordered_complete conv new_decoder items H) as (d1 & d2 & evs & O & U & L & _).
  destruct (C19_iterate_complete conv new_decoder items H eq_refl) as (d1' & d3 & evs' & O' & I' & L').
  assert (d1' = d1) by congruence. subst d1'.
  exists d1, d2, d3, evs, evs', (zlen (messages (lines_of items))). splits; auto.
  - unfold zlen. now rewrite Nat2Z.id.
  - congruence.
Qed.
Print Assumptions C19_same_as_unordered.

(** C23.  A file cut after [k] bytes. *)
Lemma whole_prefix : forall items k cp, exists ls, file_lines cp items = file_lines cp (whole k items) ++ ls.
Proof.
  induction items as [|it items IH]; intros k cp; [exists []; reflexivity|]. cbn [whole].
  destruct (length (item_bytes it) <=? k)%nat.
  - destruct it as [?|? ?|tid np ms|? cp']; cbn [file_lines].
    + destruct (IH (k - length (item_bytes (IPad bs)))%nat cp) as (ls & ->). eauto.
    + destruct (IH (k - length (item_bytes (IDict total ss)))%nat cp) as (ls & ->). eauto.
    + destruct (IH (k - length (item_bytes (IExtent tid np ms)))%nat cp) as (ls & ->). exists ls. now rewrite app_assoc.
    + destruct (IH (k - length (item_bytes (ICheckpoint junk cp')))%nat cp') as (ls & ->). exists ls. reflexivity.
  - exists (file_lines cp (it :: items)). reflexivity.
Qed.

Lemma cut_items : forall conv items k known, items_ok conv known items ->
  exists items' tail, firstn k (file_bytes items) = file_bytes items' ++ tail /\ items_ok conv known items' /\
    torn conv (knows_all known items') tail /\ forall cp, file_lines cp items' = file_lines cp (whole k items).
Proof.
  intros conv. induction items as [|it items IH]; intros k known Hi.
  - exists [], []. cbn [file_bytes map concat whole]. rewrite firstn_nil. splits; auto. now left.
  - destruct Hi as [Hit Hi]. cbn [whole]. unfold file_bytes. cbn [map concat].
    destruct (length (item_bytes it) <=? k)%nat eqn:Ek; [apply Nat.leb_le in Ek|apply Nat.leb_gt in Ek].
    + destruct (IH (k - length (item_bytes it))%nat (knows known it) Hi) as (items' & tail & E1 & E2 & E3 & E4).
      exists (it :: items'), tail. splits; auto.
      * rewrite firstn_app. rewrite firstn_all2 by lia. fold (file_bytes items). rewrite E1.
        cbn [map concat]. now rewrite app_assoc.
      * now split.
      * intro cp. destruct it; cbn [file_lines]; now rewrite ?E4.
    + rewrite firstn_app. replace (k - length (item_bytes it))%nat with 0%nat by lia. rewrite firstn_O, app_nil_r.
      destruct (is_pad it) eqn:Hp.
      * destruct it as [bs|? ?|? ? ?|? ?]; try discriminate Hp. exists [IPad (firstn k bs)], []. cbn [map concat item_bytes].
        rewrite !app_nil_r. splits; auto.
        -- split; [|exact I]. cbn [item_ok] in *. now apply Forall_firstn.
        -- now left.
      * exists [], (firstn k (item_bytes it)). cbn [map concat app]. splits; auto; try exact I.
        destruct k as [|k]; [left; reflexivity|]. right. exists it, (S k). splits; auto; try lia.
Qed.

Theorem C23_truncated : forall conv d items k, file_ok conv items ->
  let content := firstn k (file_bytes items) in
  let left := lines_of (whole k items) in
  (exists rest, lines_of items = left ++ rest) /\
  if (k <? 33)%nat then
    exists d1, d_open_file d content = Some (d1, false) /\ decompressUnordered conv d1 = Some (d1, [], -1) /\
      (bf_more (d_bf d) = false -> getNextLogStatement conv d1 = Some (d1, [], false))
  else
    exists d1 d2 evs n, d_open_file d content = Some (d1, true) /\
      decompressUnordered conv d1 = Some (d2, evs, n) /\ map line_of evs = left /\
      (bf_more (d_bf d) = false -> exists d3 evs',
        iterate conv (S (length (messages left))) d1 = Some (d3, evs', false) /\ map line_of evs' = left).
Proof.
  intros conv d [|[?|? ?|? ? ?|junk cp] items] k H content left; try contradiction H.
  destruct H as [Hc Hi]. cbn [knows] in Hi. pose proof Hc as (_ & _ & _ & Hl & _).
  pose proof (checkpoint_zlen junk (cp_rdtsc cp) (cp_unixTime cp) (cp_cps cp) Hl) as Z1.
  assert (L33 : length (item_bytes (ICheckpoint junk cp)) = 33%nat) by (cbn [item_bytes]; unfold zlen in Z1; lia).
  destruct (k <? 33)%nat eqn:Ek; [apply Nat.ltb_lt in Ek|apply Nat.ltb_ge in Ek].
  - assert (left = []) as -> by (subst left; cbn [whole]; rewrite L33; replace (33 <=? k)%nat with false by (symmetry; apply Nat.leb_gt; lia); reflexivity).
    split; [eexists; reflexivity|].
    assert (EC : content = firstn k (item_bytes (ICheckpoint junk cp))).
    { subst content. unfold file_bytes. cbn [map concat]. rewrite firstn_app. replace (k - length (item_bytes (ICheckpoint junk cp)))%nat with 0%nat by lia.
      rewrite firstn_O, app_nil_r. reflexivity. }
    rewrite EC. unfold d_open_file. rewrite (torn_checkpoint conv []) by (auto; lia).
    eexists. split; [reflexivity|]. split; [reflexivity|]. intro Hb. unfold getNextLogStatement. cbn [d_bf d_open negb orb]. rewrite Hb. reflexivity.
  - assert (EW : whole k (ICheckpoint junk cp :: items) = ICheckpoint junk cp :: whole (k - 33) items).
    { cbn [whole]. rewrite L33. replace (33 <=? k)%nat with true by (symmetry; apply Nat.leb_le; lia). reflexivity. }
    subst left. rewrite EW. cbn [lines_of].
    split; [apply whole_prefix|].
    destruct (cut_items conv items (k - 33) [] Hi) as (items' & tail & E1 & E2 & E3 & E4).
    assert (EC : content = file_bytes (ICheckpoint junk cp :: items') ++ tail).
    { subst content. rewrite file_cons, <- E1. unfold file_bytes at 1. cbn [map concat]. rewrite firstn_app, L33.
      rewrite firstn_all2 by lia. reflexivity. }
    rewrite EC, <- E4.
    destruct (unordered_file conv d junk cp items' tail (conj Hc E2) E3) as (d1 & d2 & evs & n & F1 & F2 & F3 & _).
    exists d1, d2, evs, n. splits; auto. intro Hb.
    destruct (iterate_file conv d junk cp items' tail Hb (conj Hc E2) E3) as (d1' & d3 & evs' & G1 & G2 & G3).
    assert (d1' = d1) by congruence. subst d1'. eauto.
Qed.
Print Assumptions C23_truncated.

(** C24 in full: whatever was done with the decoder before, what is read after
    opening a file are its messages.  [used] are the decoders reachable from a
    new one by opening files and reading messages. *)
Inductive used (conv : rconv -> list Z) : decoder -> Prop :=
| used_new : used conv new_decoder
| used_open : forall d items d' r, used conv d -> file_ok conv items -> d_open_file d (file_bytes items) = Some (d', r) -> used conv d'
| used_next : forall d d' evs r, used conv d -> getNextLogStatement conv d = Some (d', evs, r) -> used conv d'.

Definition reopen_fresh : Prop := forall conv d items, used conv d -> file_ok conv items ->
  exists d1 d2 evs,
    d_open_file d (file_bytes items) = Some (d1, true) /\
    iterate conv (S (length (messages (lines_of items)))) d1 = Some (d2, evs, false) /\
    map line_of evs = lines_of items.

(** Partial: getNextLogStatement, if the previous extent was read to its end;
    missing: bufferFragment is not reset by open.  decompressUnordered has no
    such restriction, C18_unordered_complete. *)
Theorem C24_reopen_partial : forall conv d items, file_ok conv items -> bf_more (d_bf d) = false ->
  exists d1 d2 evs d1' d2' evs',
    d_open_file d (file_bytes items) = Some (d1, true) /\
    iterate conv (S (length (messages (lines_of items)))) d1 = Some (d2, evs, false) /\
    d_open_file new_decoder (file_bytes items) = Some (d1', true) /\
    iterate conv (S (length (messages (lines_of items)))) d1' = Some (d2', evs', false) /\
    map line_of evs = map line_of evs' /\ map line_of evs = lines_of items.
Proof.
  intros conv d items H Hb. destruct (C19_iterate_complete conv d items H Hb) as (d1 & d2 & evs & A1 & A2 & A3).
  destruct (C19_iterate_complete conv new_decoder items H eq_refl) as (d1' & d2' & evs' & B1 & B2 & B3).
  exists d1, d2, evs, d1', d2', evs'. splits; auto. congruence.
Qed.
Print Assumptions C24_reopen_partial.

(** ** A file to compute with: two executions, three statements, padding, an
    empty extent. *)
Definition fsite (line : Z) : site := Site 2 line (chars "a.cc") (chars "n=%d") 1 [PT_NON_STRING] [TyInt (Ity true 4)].
Definition fmt_n : list piece := [Lit 110; Lit 61; Conv (Spec [] WNone PrNone [] 100)].
Definition fmsg_n (id ts n line : Z) : fmsg := FMsg (WMsg id ts [1; n]) (fsite line) (chars "n=" ++ [n]).

Lemma fmsg_n_ok : forall known id ts n line, 0 <= id < 2 ^ 32 -> 0 <= ts < 2 ^ 64 -> 0 < n < 128 ->
  nth_error known (Z.to_nat id) = Some (fsite line) ->
  run Prop_Message.show fmt_n (map promote [AInt (Ity true 4) n]) = Some (chars "n=" ++ [n]) ->
  pcodes (pvals [PT_NON_STRING] [AInt (Ity true 4) n]) = [1] -> pvalues (pvals [PT_NON_STRING] [AInt (Ity true 4) n]) = [n] ->
  fmsg_ok Prop_Message.show known (fmsg_n id ts n line).
Proof.
  intros known id ts n line Hi Ht Hn Hk HR HC HV. unfold fmsg_ok, fmsg_n. cbn [fm_w fm_site fm_text w_id w_ts w_body]. splits; auto; try lia.
  exists fmt_n, [AInt (Ity true 4) n]. splits.
  - reflexivity.
  - unfold defined. splits; try reflexivity.
    + constructor; [|constructor]. split; [cbn [it_bytes]; lia|]. unfold in_range, it_bits. cbn. lia.
    + constructor; [|constructor]. exact I.
    + exact HR.
  - unfold backend_ok. splits; try reflexivity; vm_compute; discriminate.
  - constructor; [exact I|constructor].
  - change (map report (params fmt_n)) with [PT_NON_STRING]. unfold is_body, block_at. cbn [w_body]. rewrite HC, HV. splits; try reflexivity.
    + constructor; [unfold is_byte; lia|]. constructor; [unfold is_byte; lia|constructor].
    + cbn [nibbles_from]. split; [vm_compute; reflexivity|exact I].
Qed.

Definition demo_cp (t : Z) : checkpoint := Checkpoint t (t + 1) (repeat 0 8).
Definition demo_items : list item :=
  [ICheckpoint 5 (demo_cp 10);
   IDict 1 [fsite 7]; IExtent 3 true [fmsg_n 0 1000 11 7; fmsg_n 0 900 12 7]; IPad [0; 4; 252]; IExtent 20 false [];
   IDict 2 [fsite 8]; IExtent 20 false [fmsg_n 1 950 13 8];
   ICheckpoint 0 (demo_cp 20); IDict 1 [fsite 9]; IExtent 4 false [fmsg_n 0 5 14 9]; IPad [0; 0]].

Ltac demo_msgs := repeat (constructor; [apply fmsg_n_ok; lia || reflexivity || (vm_compute; reflexivity)|]); constructor.

Lemma demo_file_ok : file_ok Prop_Message.show demo_items.
Proof.
  unfold demo_items, file_ok. cbn [items_ok knows app].
  assert (S : forall l, 0 <= l < 10 -> site_ok (fsite l)).
  { intros l Hl. unfold site_ok, fsite. cbn [si_severity si_line si_file si_fmt]. splits; try lia; try (vm_compute; reflexivity);
    repeat (constructor; [unfold nonzero_byte; vm_compute; split; reflexivity|]); constructor. }
  assert (C : forall t j, 0 <= t < 100 -> 0 <= j < 64 -> item_ok Prop_Message.show [] (ICheckpoint j (demo_cp t))).
  { intros t j H1 H2. cbn [item_ok demo_cp cp_rdtsc cp_unixTime cp_cps]. splits; try lia; try reflexivity.
    repeat (constructor; [unfold is_byte; lia|]). constructor. }
  assert (C' : forall t j k, 0 <= t < 100 -> 0 <= j < 64 -> item_ok Prop_Message.show k (ICheckpoint j (demo_cp t))) by (intros; apply C; auto).
  assert (D : forall k t l, 0 <= t < 10 -> 0 <= l < 10 -> item_ok Prop_Message.show k (IDict t [fsite l])).
  { intros k t l H1 H2. cbn [item_ok]. splits; try lia.
    - constructor; auto.
    - rewrite dict_bytes_zlen. cbn [map concat]. rewrite app_nil_r, dict_entry_size. vm_compute. reflexivity. }
  splits; try (apply C'; lia); try (apply D; lia); try exact I.
  all: cbn [item_ok]; splits; try lia; try (apply Z.leb_le; vm_compute; reflexivity); try demo_msgs.
  all: repeat (constructor; [split; [unfold is_byte; lia|reflexivity]|]); constructor.
Qed.

Definition demo_lines : list oline :=
  let m cp id ts tid line n := LMsg (Shown (demo_cp cp) id ts tid (chars "a.cc") line 2 (chars "n=" ++ [n])) in
  [m 10 0 1000 3 7 11; m 10 0 900 3 7 12; m 10 1 950 20 8 13; LNewExecution; m 20 0 5 4 9 14].

Example C18_instance :
  file_ok Prop_Message.show demo_items /\ lines_of demo_items = demo_lines /\
  option_map (fun p => option_map (fun q => (map line_of (snd (fst q)), snd q)) (decompressUnordered Prop_Message.show (fst p)))
    (d_open_file new_decoder (file_bytes demo_items)) = Some (Some (demo_lines, 4)).
Proof. split; [exact demo_file_ok|]. split; vm_compute; reflexivity. Qed.

Example C19_instance :
  option_map (fun p => option_map (fun q => (map line_of (snd (fst q)), snd q)) (iterate Prop_Message.show 5 (fst p)))
    (d_open_file new_decoder (file_bytes demo_items)) = Some (Some (demo_lines, false)).
Proof. vm_compute. reflexivity. Qed.

Example C23_instance :
  lines_of (whole 190 demo_items) = firstn 4 demo_lines /\ zlen (file_bytes demo_items) = 196 /\
  option_map (fun p => option_map (fun q => map line_of (snd (fst q))) (decompressUnordered Prop_Message.show (fst p)))
    (d_open_file new_decoder (firstn 190 (file_bytes demo_items))) = Some (Some (firstn 4 demo_lines)).
Proof. repeat split; vm_compute; reflexivity. Qed.

Example C14_instance :
  let e := Enc (fun _ => 9) 0 0 100 None 0 in
  staged_at [demo_site] demo_min 500 [demo_msg] [staged_bytes demo_site demo_msg] /\
  Forall2 (said Prop_Message.show [demo_site]) [demo_msg] [chars "x=" ++ [-7] ++ chars " hi"] /\ enc_ok e /\
  let out := load (e_mem (fst (fst (encodeLogMsgs e demo_min 500 26 20 true [demo_site])))) 0 15 in
  option_map (fun r => (bf_tid (snd (fst (fst r))), snd (fst r), snd r)) (readBufferExtent (File out false) new_bfrag) = Some (20, true, true).
Proof.
  intro e. split; [exact demo_staged|]. split; [|split].
  - constructor; [|constructor]. exists demo_site, [Lit 120; Lit 61; Conv (Spec [] WNone PrNone [] 100); Lit 32; Conv (Spec [] WNone PrNone [] 115)], 10.
    unfold defined, backend_ok. splits; match goal with |- Forall _ _ => idtac | |- Forall2 _ _ _ => idtac | |- _ <= _ => vm_compute; discriminate | |- _ => vm_compute; reflexivity end.
    + constructor; [|constructor; [|constructor]].
      * split; [cbn [it_bytes]; lia|]. vm_compute. split; congruence.
      * split; [lia|]. repeat (constructor; [unfold is_byte; lia|]). constructor.
    + constructor; [exact I|constructor; [|constructor]]. concrete.
    + constructor; [exact I|constructor; [reflexivity|constructor]].
  - unfold enc_ok, e. cbn [e_mem e_base e_wp e_hi e_end]. splits; try lia. intro. unfold is_byte. lia.
  - vm_compute. reflexivity.
Qed.

(** Three calls: no room, room for one statement of two, room for the rest. *)
Example C16_instance :
  let enc_of n := Enc (fun _ => 9) 0 0 n None 0 in
  let cs := [(enc_of 6, 1%nat); (enc_of 40, 2%nat); (enc_of 100, 3%nat)] in
  let sites := [fsite 7; fsite 8; fsite 9] in
  Forall dict_call_ok cs /\ growing 0 cs /\ map zlen (fst (write_dict sites 0 cs)) = [0; 27; 46] /\ snd (write_dict sites 0 cs) = 3 /\
  option_map (fun r => map (fun de => option_map mc_line (de_mc de)) (snd r))
    (read_dict (fst (write_dict sites 0 cs)) (File (concat (fst (write_dict sites 0 cs))) false) []) = Some [Some 7; Some 8; Some 9].
Proof.
  intros enc_of cs sites. split; [|split; [cbn [growing cs]; repeat split; lia|split; [|split]; vm_compute; reflexivity]].
  subst cs enc_of. repeat (constructor; [unfold dict_call_ok, e_space; cbn [fst e_mem e_wp e_hi e_end]; splits; try lia; intro; unfold is_byte; lia|]).
  constructor.
Qed.

(** C24 fails: one message of two is read, then another file is opened.  The
    leftover message is looked up in the dictionary of the new file, still empty,
    and std::vector::at throws. *)
Definition reopened : list item :=
  [ICheckpoint 0 (demo_cp 30); IDict 1 [fsite 5]; IExtent 2 false [fmsg_n 0 70 21 5]].

Lemma reopened_ok : file_ok Prop_Message.show reopened.
Proof.
  unfold reopened, file_ok. cbn [items_ok knows app]. splits; try exact I.
  - cbn [item_ok demo_cp cp_rdtsc cp_unixTime cp_cps]. splits; try lia; try reflexivity.
    repeat (constructor; [unfold is_byte; lia|]). constructor.
  - cbn [item_ok]. splits; try lia.
    + constructor; [|constructor]. unfold site_ok, fsite. cbn [si_severity si_line si_file si_fmt]. splits; try lia; try (vm_compute; reflexivity);
      repeat (constructor; [unfold nonzero_byte; vm_compute; split; reflexivity|]); constructor.
    + rewrite dict_bytes_zlen. cbn [map concat]. rewrite app_nil_r, dict_entry_size. vm_compute. reflexivity.
  - cbn [item_ok]; splits; try lia; try (apply Z.leb_le; vm_compute; reflexivity); try demo_msgs.
Qed.

Theorem C24_refuted_leftover : ~ reopen_fresh.
Proof.
  intro H.
  destruct (d_open_file new_decoder (file_bytes demo_items)) as [[d1 r1]|] eqn:E1; [|vm_compute in E1; discriminate E1].
  destruct (getNextLogStatement Prop_Message.show d1) as [[[d2 evs2] r2]|] eqn:E2.
  2:{ assert (X : match d_open_file new_decoder (file_bytes demo_items) with Some (d, _) => match getNextLogStatement Prop_Message.show d with Some _ => true | None => false end | None => false end = true) by (vm_compute; reflexivity).
      rewrite E1, E2 in X. discriminate X. }
  assert (U : used Prop_Message.show d2).
  { eapply used_next; [|exact E2]. eapply used_open; [apply used_new|exact demo_file_ok|exact E1]. }
  destruct (H _ d2 reopened U reopened_ok) as (d3 & d4 & evs & E3 & E4 & E5).
  assert (X : match d_open_file new_decoder (file_bytes demo_items) with
    | Some (d, _) => match getNextLogStatement Prop_Message.show d with
      | Some (d', _, _) => match d_open_file d' (file_bytes reopened) with
        | Some (d'', _) => match iterate Prop_Message.show (S (length (messages (lines_of reopened)))) d'' with
          | Some _ => true | None => false end
        | None => true end
      | None => true end
    | None => true end = false) by (vm_compute; reflexivity).
  rewrite E1, E2, E3, E4 in X. discriminate X.
Qed.
Print Assumptions C24_refuted_leftover.

Example C24_instance :
  bf_more (d_bf new_decoder) = false /\ used Prop_Message.show new_decoder /\
  option_map (fun p => option_map (fun q => map line_of (snd (fst q))) (iterate Prop_Message.show 5 (fst p)))
    (d_open_file new_decoder (file_bytes reopened)) =
  Some (Some [LMsg (Shown (demo_cp 30) 0 70 2 (chars "a.cc") 5 2 (chars "n=" ++ [21]))]).
Proof. split; [reflexivity|]. split; [constructor|]. vm_compute. reflexivity. Qed.
