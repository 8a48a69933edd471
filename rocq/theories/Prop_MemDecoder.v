(** C60: the decompressor's dictionary in memory.

    createMicroCode writes metadata into rawMetadata, a buffer of a fixed size,
    without looking at its end, and printing reads it through pointers kept in
    fmtId2metadata.  The properties of the decompressor (C18 to C23, C59) are
    stated for a dictionary that is a list; here the decompressor with the
    buffer is shown to do the same, for files whose dictionaries fit. *)
From Verif Require Import Base BaseProofs Packer PackerProofs LogHeader LogHeaderProofs Chars Fmt Regex MicroCode Args Printf Decode DecodeProofs
  Encoder Wire EncoderProofs Decoder FileSpec DecoderProofs Prop_Decoder Ordered OrderedProofs MetaDict Prop_MetaDict PreprocLit MicroMem MicroMemProofs
  MemDecoder MemDecoderProofs.

(** The decoder [md] is [d], its dictionary in memory. *)
Definition in_memory (lim : Z) (d : decoder) (md : mdecoder) : Prop :=
  md_open md = d_open d /\ md_file md = d_file d /\ md_printed md = d_printed d /\ md_bf md = d_bf d /\ md_good md = d_good d /\
  md_cp md = d_cp d /\ md_free md = d_free d /\ 0 <= ms_end (md_st md) <= lim /\ zlen (ms_at (md_st md)) = zlen (d_dict d) /\
  ms_fmts (md_st md) = map de_fmt (d_dict d) /\
  forall id mc, metadata_at (d_dict d) (Z.to_nat id) = Some mc -> metadata_of lim (md_st md) id = Some (visible mc).

(** Calling getNextLogStatement again and again, as in [iterate]. *)
Fixpoint m_iterate (lim : Z) (conv : rconv -> list Z) (calls : nat) (d : mdecoder) : option (mdecoder * list event * bool) :=
  match calls with
  | O => Some (d, [], true)
  | S n =>
    match m_getNextLogStatement lim conv d with
    | None => None
    | Some (d', evs, false) => Some (d', evs, false)
    | Some (d', evs, true) =>
      match m_iterate lim conv n d' with
      | None => None
      | Some (d'', evs', r) => Some (d'', evs ++ evs', r)
      end
    end
  end.

(** All three ways of decompressing print the same. *)
Definition prints_the_same (lim : Z) (conv : rconv -> list Z) (pick : chooser) (d : decoder) (md : mdecoder) : Prop :=
  (forall d2 evs n, decompressUnordered conv d = Some (d2, evs, n) ->
     exists md2, m_decompressUnordered lim conv md = Some (md2, evs, n) /\ in_memory lim d2 md2) /\
  (forall d2 evs n, decompressTo conv pick d = Some (d2, evs, n) ->
     exists md2, m_decompressTo lim conv pick md = Some (md2, evs, n) /\ in_memory lim d2 md2) /\
  (forall calls d2 evs r, iterate conv calls d = Some (d2, evs, r) ->
     exists md2, m_iterate lim conv calls md = Some (md2, evs, r) /\ in_memory lim d2 md2).

Lemma tracked_length : forall m e ats dict, tracked m e ats dict -> zlen ats = zlen dict.
Proof.
  intros m e. induction ats as [|p ats IH]; intros [|d dict] H; try contradiction; [reflexivity|]. cbn [tracked] in H.
  rewrite !zlen_cons, (IH dict) by tauto. reflexivity.
Qed.

Lemma with_memory_in : forall lim d st, tracks lim st (d_dict d) -> in_memory lim d (with_memory d st).
Proof.
  intros lim d st T. pose proof T as (T1 & T2 & T3). unfold in_memory. fields d st. splits; auto; try reflexivity; try lia.
  - eapply tracked_length; eauto.
  - intros id mc H. eapply tracks_find; eauto.
Qed.

Lemma iterate_sim : forall lim conv P, fits lim P -> forall calls d st d' evs r, same lim P d st ->
  iterate conv calls d = Some (d', evs, r) ->
  exists st', m_iterate lim conv calls (with_memory d st) = Some (with_memory d' st', evs, r) /\ same lim P d' st'.
Proof.
  intros lim conv P F. induction calls as [|calls IH]; intros d st d' evs r S H.
  { injection H as <- <- <-. exists st. auto. }
  cbn [iterate] in H. cbn [m_iterate]. destruct (getNextLogStatement conv d) as [[[d1 ev1] r1]|] eqn:E; [|discriminate H].
  destruct (getNext_sim lim conv P _ st _ _ _ F S E) as (st1 & -> & S1). destruct r1.
  - destruct (iterate conv calls d1) as [[[d2 ev2] r2]|] eqn:E2; [|discriminate H]. destruct (IH _ st1 _ _ _ S1 E2) as (st2 & -> & S2).
    injection H as <- <- <-. exists st2. auto.
  - injection H as <- <- <-. exists st1. auto.
Qed.

Lemma same_prints : forall lim conv pick P d st, fits lim P -> same lim P d st -> prints_the_same lim conv pick d (with_memory d st).
Proof.
  intros lim conv pick P d st F S. unfold prints_the_same. splits.
  - intros d2 evs n H. destruct (unordered_all_sim lim conv P _ _ _ _ _ F S H) as (st2 & R & S2). eexists. split; [exact R|]. apply with_memory_in, S2.
  - intros d2 evs n H. destruct (ordered_all_sim lim conv pick P _ _ _ _ _ F S H) as (st2 & R & S2). eexists. split; [exact R|]. apply with_memory_in, S2.
  - intros calls d2 evs r H. destruct (iterate_sim lim conv P F _ _ _ _ _ _ S H) as (st2 & R & S2). eexists. split; [exact R|]. apply with_memory_in, S2.
Qed.

(** C60 for any bytes, whether a log or not. *)
Theorem C60_any_file_partial : forall lim conv pick m content d1 r,
  Forall is_byte content -> 3 * zlen content <= lim ->
  d_open_file new_decoder content = Some (d1, r) ->
  exists md1, md_open_file lim (new_mdecoder m) content = Some (md1, r) /\ in_memory lim d1 md1 /\ prints_the_same lim conv pick d1 md1.
Proof.
  intros lim conv pick m content d1 r B L H. pose proof (zlen_nonneg _ content) as Z0.
  assert (T : tracks lim (Metas m 0 [] []) (d_dict new_decoder)).
  { unfold tracks. cbn [ms_end ms_mem ms_at ms_fmts d_dict new_decoder tracked map]. splits; auto; lia. }
  destruct (open_sim lim (small lim) new_decoder (Metas m 0 [] []) content d1 r T) as (st1 & R & S); auto.
  { intros cp dict f cp' dict' RD. destruct (checkpoint_shrinks _ _ _ _ _ _ _ RD) as (pre & C). unfold consumed in C. cbn [f_rest] in C.
    apply (small_suffix lim pre). rewrite <- C. unfold small. splits; auto; lia. }
  exists (with_memory d1 st1). splits.
  - exact R.
  - apply with_memory_in, S.
  - apply (same_prints lim conv pick (small lim)); [apply small_fits|exact S].
Qed.
Print Assumptions C60_any_file_partial.

(** C60 for logs, cut off anywhere. *)
Theorem C60_log_partial : forall lim conv pick m items k d1 r,
  file_ok conv items -> dictionaries_fit lim 0 items ->
  d_open_file new_decoder (firstn k (file_bytes items)) = Some (d1, r) ->
  exists md1, md_open_file lim (new_mdecoder m) (firstn k (file_bytes items)) = Some (md1, r) /\ in_memory lim d1 md1 /\
    prints_the_same lim conv pick d1 md1.
Proof.
  intros lim conv pick m items k d1 r F D H. pose proof (dicts_le _ _ _ D) as Z0.
  assert (I : items_ok conv [] items) by (destruct items as [|[?|? ?|? ? ?|? ?] items]; try contradiction F; exact F).
  destruct (cut_fits conv lim items k [] 0 I D) as (items' & tail & E1 & E2 & E3 & E4).
  assert (T : tracks lim (Metas m 0 [] []) (d_dict new_decoder)).
  { unfold tracks. cbn [ms_end ms_mem ms_at ms_fmts d_dict new_decoder tracked map]. splits; auto; lia. }
  assert (LF : log_file conv lim (firstn k (file_bytes items)) 0) by (exists [], items', tail; splits; auto; lia).
  destruct (open_sim lim (log_file conv lim) new_decoder (Metas m 0 [] []) (firstn k (file_bytes items)) d1 r T) as (st1 & R & S); auto.
  { intros cp dict f cp' dict' RD. destruct (log_file_fits conv lim) as (_ & FC & _ & _). eapply FC; [exact LF| |exact RD].
    unfold readDictionary in RD. destruct (fread 33 _) as [b f1] eqn:EF. destruct (zlen b <? 33) eqn:EZ; [discriminate RD|].
    apply fread_split in EF. cbn [f_rest] in EF. destruct (negb (entryType (nth 0 b 0) =? ET_CHECKPOINT)) eqn:EE; [discriminate RD|].
    apply negb_false_iff, Z.eqb_eq in EE. rewrite EF. destruct b as [|b0 b]; [discriminate EZ|]. exact EE. }
  exists (with_memory d1 st1). splits.
  - exact R.
  - apply with_memory_in, S.
  - apply (same_prints lim conv pick (log_file conv lim)); [apply log_file_fits|exact S].
Qed.
Print Assumptions C60_log_partial.

(** What a log says is printed, with the buffer. *)
Theorem C60_complete_partial : forall lim conv m items, file_ok conv items -> dictionaries_fit lim 0 items ->
  exists md1 md2 md3 evs evs',
    md_open_file lim (new_mdecoder m) (file_bytes items) = Some (md1, true) /\
    m_decompressUnordered lim conv md1 = Some (md2, evs, zlen (messages (lines_of items))) /\ map line_of evs = lines_of items /\
    m_iterate lim conv (S (length (messages (lines_of items)))) md1 = Some (md3, evs', false) /\ map line_of evs' = lines_of items.
Proof.
  intros lim conv m items F D.
  destruct (C18_unordered_complete conv new_decoder items F) as (d1 & d2 & evs & A1 & A2 & A3 & _).
  destruct (C19_iterate_complete conv new_decoder items F eq_refl) as (d1' & d3 & evs' & B1 & B2 & B3).
  assert (d1' = d1) by congruence. subst d1'.
  destruct (C60_log_partial lim conv (fun _ _ _ => O) m items (length (file_bytes items)) d1 true F D) as (md1 & R1 & _ & R2 & _ & R3).
  { now rewrite firstn_all. }
  rewrite firstn_all in R1. destruct (R2 _ _ _ A2) as (md2 & U1 & _). destruct (R3 _ _ _ _ B2) as (md3 & U2 & _).
  exists md1, md2, md3, evs, evs'. splits; auto.
Qed.
Print Assumptions C60_complete_partial.

(** C60 in full: a log smaller than rawMetadata can be decompressed. *)
Definition C60_full : Prop := forall conv m items, file_ok conv items -> zlen (file_bytes items) < RAW_METADATA ->
  exists md1 md2 evs n, md_open_file RAW_METADATA (new_mdecoder m) (file_bytes items) = Some (md1, true) /\
    m_decompressUnordered RAW_METADATA conv md1 = Some (md2, evs, n).

(** A statement with an empty format takes 11 bytes of a log and 14 of
    rawMetadata. *)
Definition bare : site := Site 0 1 [] [] 0 [] [].

Lemma bare_ok : site_ok bare.
Proof. unfold site_ok, bare. cbn [si_severity si_line si_file si_fmt]. change (zlen (@nil Z)) with 0. splits; auto; lia. Qed.

Lemma bare_entry : forall lim m fm line level,
  create_micro_code lim m fm [] [] line level = None \/
  fm + 14 <= lim /\ exists m', create_micro_code lim m fm [] [] line level = Some (m', fm + 14, true).
Proof.
  intros lim m fm line level. unfold create_micro_code. destruct (puts lim m _) as [m1|]; [|left; reflexivity].
  change (micro_scan (length (@nil Z) + 2) lim fm [] 0 0 0 None m1 (fm + 9 + zlen (@nil Z) + 1)) with (Some (m1, Some (fm + 9 + 0 + 1, 0, @None Z))).
  cbv iota beta. change (zlen (@nil Z) + 1 <? 2 ^ 16) with true. cbv iota. cbn [puts app].
  destruct (put lim m1 (fm + 1) [1]) as [m2|]; [|left; reflexivity]. destruct (put lim m2 _ _) as [m3|]; [|left; reflexivity].
  destruct (put lim m3 _ _) as [m4|]; [|left; reflexivity]. unfold put. change (zlen [0]) with 1.
  destruct ((0 <=? fm + 9 + 0 + 1 + 3) && (fm + 9 + 0 + 1 + 3 + 1 <=? lim)) eqn:E; [|left; reflexivity].
  right. split; [lia|]. eexists. cbn [option_map]. change (zlen (@nil Z)) with 0. f_equal. f_equal. f_equal. lia.
Qed.

Lemma bare_loop : forall lim n fuel read total st rest, lim < ms_end st + 14 * Z.of_nat n -> (ms_end st <= lim) ->
  total = read + 11 * Z.of_nat n ->
  fragment_loop fuel lim read total (File (concat (map dict_entry (repeat bare n)) ++ rest) false) st = None.
Proof.
  intros lim. induction n as [|n IH]; intros fuel read total st rest HL H0 HT; [lia|].
  destruct fuel as [|fuel]; [reflexivity|]. cbn [fragment_loop f_eof repeat map concat].
  replace (read <? total) with true by lia. cbn [andb negb].
  change (dict_entry bare) with ([0; 1; 0; 0; 0; 1; 0; 1; 0] ++ [0] ++ [0]). rewrite <- !app_assoc.
  rewrite (fread_app 9) by reflexivity. change (zlen [0; 1; 0; 0; 0; 1; 0; 1; 0] <? 9) with false. cbv iota zeta.
  change (le_val (slice 5 2 [0; 1; 0; 0; 0; 1; 0; 1; 0])) with 1. change (le_val (slice 7 2 [0; 1; 0; 0; 0; 1; 0; 1; 0])) with 1.
  rewrite (fread_app 1 [0]) by reflexivity. rewrite (fread_app 1 [0]) by reflexivity.
  change (zlen [0]) with 1. change (9 + 1 + 1 =? 9 + 1 + 1) with true. cbn [negb]. change (cstring [0]) with (Some (@nil Z)). cbv iota.
  destruct (bare_entry lim (ms_mem st) (ms_end st) (le_val (slice 1 4 [0; 1; 0; 0; 0; 1; 0; 1; 0])) (le_val (slice 0 1 [0; 1; 0; 0; 0; 1; 0; 1; 0]))) as [->|(L & m' & ->)]; [reflexivity|].
  apply IH; cbn [ms_end]; lia.
Qed.

Lemma bare_zlen : forall n, zlen (concat (map dict_entry (repeat bare n))) = 11 * Z.of_nat n.
Proof. induction n as [|n IH]; [reflexivity|]. cbn [repeat map concat]. rewrite zlen_app, IH. change (zlen (dict_entry bare)) with 11. lia. Qed.

Lemma bare_ok_list : forall n, Forall site_ok (repeat bare n).
Proof. induction n; cbn [repeat]; constructor; auto. apply bare_ok. Qed.

Definition bare_log (n : nat) : list item := [ICheckpoint 0 (Checkpoint 0 0 (repeat 0 8)); IDict 0 (repeat bare n)].

Lemma bare_log_ok : forall conv n, 11 * Z.of_nat n + 8 < 2 ^ 30 -> file_ok conv (bare_log n).
Proof.
  intros conv n H. unfold file_ok, bare_log. cbn [items_ok item_ok knows cp_rdtsc cp_unixTime cp_cps]. splits; auto; try lia.
  - repeat constructor; unfold is_byte; lia.
  - apply bare_ok_list.
  - rewrite dict_bytes_zlen, bare_zlen. lia.
Qed.

(** Such a log overruns rawMetadata, however large it is. *)
Theorem C60_overrun : forall lim conv m n, 0 <= lim < 14 * Z.of_nat n -> 11 * Z.of_nat n + 8 < 2 ^ 30 ->
  file_ok conv (bare_log n) /\ zlen (file_bytes (bare_log n)) = 41 + 11 * Z.of_nat n /\
  exists md1, md_open_file lim (new_mdecoder m) (file_bytes (bare_log n)) = Some (md1, true) /\ m_decompressUnordered lim conv md1 = None.
Proof.
  intros lim conv m n HL HN. pose proof (bare_log_ok conv n HN) as OK. splits; auto.
  { unfold file_bytes, bare_log. cbn [map concat]. rewrite !zlen_app. cbn [item_bytes cp_rdtsc cp_unixTime cp_cps].
    rewrite dict_bytes_zlen, bare_zlen. change (zlen (checkpoint_bytes 0 0 0 (repeat 0 8))) with 33. change (zlen (@nil Z)) with 0. lia. }
  assert (T : tracks lim (Metas m 0 [] []) []).
  { unfold tracks. cbn [ms_end ms_mem ms_at ms_fmts tracked map]. splits; auto; lia. }
  pose proof OK as (OK1 & OK2 & _).
  set (db := item_bytes (IDict 0 (repeat bare n))).
  pose proof (readDictionary_spec conv [] 0 (Checkpoint 0 0 (repeat 0 8)) (db ++ []) (Checkpoint 0 0 []) [] OK1) as RD.
  assert (EF : file_bytes (bare_log n) = item_bytes (ICheckpoint 0 (Checkpoint 0 0 (repeat 0 8))) ++ db ++ []) by reflexivity.
  rewrite EF. unfold md_open_file. 
  destruct (checkpoint_sim lim (md_cp (new_mdecoder m)) (md_st (new_mdecoder m)) [] (File (item_bytes (ICheckpoint 0 (Checkpoint 0 0 (repeat 0 8))) ++ db ++ []) false)
    (File (db ++ []) false) (Checkpoint 0 0 (repeat 0 8)) [] true) as (st & R & T2 & E0).
  { exact T. }
  { apply (readDictionary_spec conv [] 0 (Checkpoint 0 0 (repeat 0 8))). exact OK1. }
  specialize (E0 eq_refl). rewrite R. eexists. split; [reflexivity|].
  unfold m_decompressUnordered. cbn [md_open negb md_file md_free f_rest]. destruct (allocateBufferFragment _) as [b free].
  generalize (S (length (db ++ []))) as fuel. intro fuel. cbn [m_unordered_loop f_eof md_file md_good orb negb].
  destruct OK2 as (HT & _ & HZ). unfold db. cbn [item_bytes].
  destruct (dict_head 0 (repeat bare n) [] HT HZ) as (D1 & D2 & D3 & D4). cbv zeta in *.
  set (h := le_bytes 4 (1 + 4 * zlen (dict_bytes 0 (repeat bare n))) ++ le_bytes 4 0) in *. rewrite D1.
  assert (PK : peekEntryType (File (h ++ concat (map dict_entry (repeat bare n)) ++ []) false)
               = (ET_LOG_MSGS_OR_DIC, File (h ++ concat (map dict_entry (repeat bare n)) ++ []) false)).
  { unfold peekEntryType. cbn [f_rest]. destruct h as [|h0 h]; [discriminate D2|]. cbn [app]. cbn [nth] in D3. now rewrite D3. }
  rewrite PK. change (ET_LOG_MSGS_OR_DIC =? ET_BUFFER_EXTENT) with false. change (ET_LOG_MSGS_OR_DIC =? ET_CHECKPOINT) with false.
  change (ET_LOG_MSGS_OR_DIC =? ET_LOG_MSGS_OR_DIC) with true. cbv iota. cbn [md_st]. unfold read_fragment.
  rewrite (fread_app 8) by exact D2. rewrite D2, D3, D4. change (8 <? 8) with false. cbn [negb].
  change (ET_LOG_MSGS_OR_DIC =? ET_LOG_MSGS_OR_DIC) with true. cbv iota.
  rewrite bare_loop; [reflexivity| | |]; rewrite ?E0, ?dict_bytes_zlen, ?bare_zlen; lia.
Qed.
Print Assumptions C60_overrun.

Theorem C60_refuted : ~ C60_full.
Proof.
  intro H. destruct (C60_overrun RAW_METADATA (fun _ => []) (fun _ => 0) (Z.to_nat 80000000)) as (A & B & md1 & C & D).
  { unfold RAW_METADATA. rewrite Z2Nat.id by lia. lia. }
  { rewrite Z2Nat.id by lia. lia. }
  destruct (H (fun _ => []) (fun _ => 0) (bare_log (Z.to_nat 80000000)) A) as (md1' & md2 & evs & n & E1 & E2).
  { rewrite B. unfold RAW_METADATA. rewrite Z2Nat.id by lia. lia. }
  rewrite C in E1. injection E1 as <-. rewrite D in E2. discriminate E2.
Qed.
Print Assumptions C60_refuted.

(** The log of C18's example in a buffer of 400 bytes, and of 40. *)
Example ex_C60 :
  dictionaries_fit 400 0 demo_items /\
  option_map (fun r => option_map (fun '(_, evs, n) => (map line_of evs, n)) (m_decompressUnordered 400 Prop_Message.show (fst r)))
    (md_open_file 400 (new_mdecoder (fun _ => 7)) (file_bytes demo_items)) = Some (Some (demo_lines, 4)) /\
  option_map (fun r => option_map (fun '(_, evs, b) => (map line_of evs, b)) (m_iterate 400 Prop_Message.show 5 (fst r)))
    (md_open_file 400 (new_mdecoder (fun _ => 7)) (file_bytes demo_items)) = Some (Some (demo_lines, false)) /\
  option_map (fun r => option_map (fun '(_, evs, n) => n) (m_decompressUnordered 40 Prop_Message.show (fst r)))
    (md_open_file 40 (new_mdecoder (fun _ => 7)) (file_bytes demo_items)) = Some None.
Proof. splits; try (vm_compute; reflexivity). unfold demo_items. cbn [dictionaries_fit]. splits; vm_compute; discriminate. Qed.
