(** C59: damage to a log hides nothing that is in front of it. *)
From Verif Require Import Base BaseProofs Packer PackerProofs LogHeader Chars Fmt FmtProofs FrontFmt Prop_FrontFmt MicroCode Prop_MicroCode
  Args Printf ArgsProofs Prop_Args Decode DecodeProofs Prop_Message Encoder Wire EncoderProofs Prop_Encoder Decoder FileSpec DecoderProofs
  Prop_Decoder Ordered OrderedProofs OrderSpec OrderTheory Prop_Ordered.
From Coq Require Import Permutation Sorted.

(** ** The claims *)
(** Behind a log there are any bytes at all.  Iterating, every message of the log
    is delivered before these bytes matter. *)
Definition iterate_undamaged : Prop := forall conv d items junk, file_ok conv items -> bf_more (d_bf d) = false ->
  exists d1 d2 evs, d_open_file d (file_bytes items ++ junk) = Some (d1, true) /\
    iterate conv (length (messages (lines_of items))) d1 = Some (d2, evs, true) /\
    messages (map line_of evs) = messages (lines_of items).

(** Decompressing the whole file prints the log first (unordered), or at least
    prints all of it (ordered).  ([None]: the bytes make the decoder fail an
    assertion, throw, or run out of its storage.) *)
Definition unordered_undamaged : Prop := forall conv d items junk, file_ok conv items ->
  exists d1, d_open_file d (file_bytes items ++ junk) = Some (d1, true) /\
    forall d2 evs n, decompressUnordered conv d1 = Some (d2, evs, n) ->
    exists more, map line_of evs = lines_of items ++ more.

Definition ordered_undamaged : Prop := forall conv pick d items junk, heap_front pick -> file_ok conv items -> one_execution (tl items) ->
  exists d1, d_open_file d (file_bytes items ++ junk) = Some (d1, true) /\
    forall d2 evs n, decompressTo conv pick d1 = Some (d2, evs, n) ->
    incl (messages (lines_of items)) (messages (map line_of evs)).

Definition C59_full : Prop := iterate_undamaged /\ unordered_undamaged /\ ordered_undamaged.

(** ** Padding in front of an item *)
Lemma pads_split : forall items, exists pads, items = pads ++ drop_pads items /\ drop_pads pads = [].
Proof.
  induction items as [|[bs|? ?|? ? ?|? ?] items (pads & E1 & E2)]; try (exists []; split; reflexivity).
  exists (IPad bs :: pads). cbn [drop_pads app]. split; [now rewrite <- E1|exact E2].
Qed.

Lemma items_ok_app_l : forall conv a b known, items_ok conv known (a ++ b) -> items_ok conv known a.
Proof. intros conv. induction a as [|it a IH]; intros b known H; [exact I|]. destruct H as [H1 H2]. split; eauto. Qed.

Lemma skip_any : forall conv items known it r fuel tail, items_ok conv known items -> drop_pads items = it :: r -> is_pad it = false ->
  (length (file_bytes items ++ tail) < fuel)%nat ->
  skip_padding fuel (File (file_bytes items ++ tail) false) = File (file_bytes (it :: r) ++ tail) false.
Proof.
  intros conv items known it r fuel tail Hi E Hp Hf. destruct (pads_split items) as (pads & E1 & E2). rewrite E in E1.
  pose proof (drop_pads_ok _ _ _ Hi) as Hd. rewrite E in Hd. destruct Hd as [Hit _].
  destruct (item_head _ _ _ Hit Hp) as (b & bs & EB & T).
  assert (EF : file_bytes items ++ tail = file_bytes pads ++ file_bytes (it :: r) ++ tail).
  { rewrite E1. unfold file_bytes. now rewrite map_app, concat_app, app_assoc. }
  rewrite EF in *. pose proof (file_cons it r tail) as FC. rewrite EB in FC. cbn [app] in FC.
  rewrite (skip_items conv pads known); auto.
  - rewrite E2. change (file_bytes []) with (@nil Z). cbn [app]. now rewrite FC.
  - rewrite E1 in Hi. eapply items_ok_app_l; eauto.
  - rewrite FC. cbn [starts]. rewrite T. now apply type_not_invalid.
Qed.

(** ** Unordered *)
Lemma unordered_front : forall conv n items, (length items <= n)%nat -> forall known cp op pr bfm fr b fuel tail d' b' evs,
  items_ok conv known items ->
  unordered_loop conv fuel (Decoder op (File (file_bytes items ++ tail) false) pr bfm true cp fr (dict_of known)) b = Some (d', b', evs) ->
  exists more, map line_of evs = file_lines cp items ++ more.
Proof.
  intros conv. induction n as [|n IH]; intros items Hn known cp op pr bfm fr b fuel tail d' b' evs Hi HU.
  - destruct items; [|cbn [length] in Hn; lia]. now exists (map line_of evs).
  - destruct items as [|it items]; [now exists (map line_of evs)|].
    cbn [length] in Hn. destruct Hi as [Hit Hi].
    destruct (is_pad it) eqn:Hp.
    + destruct it as [bs|? ?|? ? ?|? ?]; try discriminate Hp. cbn [knows file_lines] in *.
      destruct bs as [|p bs]; [apply (IH items ltac:(lia) _ _ _ _ _ _ _ _ _ _ _ _ Hi HU)|].
      pose proof (drop_pads_length items) as [DL1 DL2].
      destruct (drop_pads_cases _ _ _ Hi) as [D0|(it & r & D1 & D2 & D3)].
      { rewrite <- drop_pads_lines, D0. now exists (map line_of evs). }
      destruct fuel as [|fuel]; [discriminate HU|].
      pose proof (skip_any conv (IPad (p :: bs) :: items) known it r (S (length (p :: bs ++ file_bytes items ++ tail))) tail (conj Hit Hi)) as K.
      rewrite (file_cons (IPad (p :: bs)) items tail) in *. cbn [item_bytes] in *. inversion Hit as [|? ? [P1 P2] Hbs]; subst.
      cbn [app] in *. specialize (K D1 D2 ltac:(lia)).
      cbn [unordered_loop d_file f_eof d_good negb orb d_printed d_cp d_dict d_open d_bf d_free] in HU.
      unfold peekEntryType at 1 in HU. cbn [f_rest] in HU. rewrite (pad_type p P1 P2) in HU.
      change (ET_INVALID =? ET_BUFFER_EXTENT) with false in HU. change (ET_INVALID =? ET_CHECKPOINT) with false in HU.
      change (ET_INVALID =? ET_LOG_MSGS_OR_DIC) with false in HU. cbv iota in HU. cbn [f_rest] in HU. rewrite K in HU.
      rewrite <- drop_pads_lines, D1. pose proof (drop_pads_ok _ _ _ Hi) as Hd. rewrite D1 in *. exact (IH (it :: r) ltac:(lia) _ _ _ _ _ _ _ _ _ _ _ _ Hd HU).
    + destruct fuel as [|fuel]; [discriminate HU|]. rewrite file_cons in *.
      cbn [unordered_loop d_file f_eof d_good negb orb d_printed d_cp d_dict d_open d_bf d_free] in HU.
      rewrite (peek_item conv known) in HU by auto.
      destruct it as [?|total ss|tid np ms|junk cpx]; [discriminate Hp| | |]; cbn [type_of knows file_lines] in *.
      * change (ET_LOG_MSGS_OR_DIC =? ET_BUFFER_EXTENT) with false in HU. change (ET_LOG_MSGS_OR_DIC =? ET_CHECKPOINT) with false in HU.
        change (ET_LOG_MSGS_OR_DIC =? ET_LOG_MSGS_OR_DIC) with true in HU. cbv iota in HU.
        rewrite (readDictionaryFragment_spec conv known) in HU by auto.
        assert (dict_of known ++ map entry_of ss = dict_of (known ++ ss)) as ED by (unfold dict_of; now rewrite map_app).
        rewrite ED in HU. eapply IH; [|exact Hi|exact HU]. lia.
      * change (ET_BUFFER_EXTENT =? ET_BUFFER_EXTENT) with true in HU. cbv iota in HU.
        destruct Hit as (T1 & T2 & T3). cbn [item_bytes] in *.
        destruct (readBufferExtent_spec tid np (map fm_w ms) (file_bytes items ++ tail) b T1 (fmsgs_wm _ _ _ T3) T2) as (b1 & EB & A).
        rewrite EB in HU. cbv iota in HU.
        destruct (drain_spec conv known cp tid ms b1 (S (S (Z.to_nat (bf_end b1 - bf_pos b1)))) A T3) as (b2 & evs1 & ED & E1 & E2 & E3).
        { intros _. lia. } { lia. }
        rewrite ED in HU.
        destruct (unordered_loop conv fuel _ b2) as [[[d3 b3] evs3]|] eqn:EU; [|discriminate HU].
        destruct (IH items ltac:(lia) known cp op (pr + msgs_in evs1) bfm fr b2 fuel tail d3 b3 evs3 Hi EU) as (more & F).
        injection HU as <- <- <-. exists more. now rewrite map_app, E1, F, app_assoc.
      * change (ET_CHECKPOINT =? ET_BUFFER_EXTENT) with false in HU. change (ET_CHECKPOINT =? ET_CHECKPOINT) with true in HU. cbv iota in HU.
        rewrite (readDictionary_spec conv known) in HU by auto.
        destruct (unordered_loop conv fuel _ b) as [[[d3 b3] evs3]|] eqn:EU; [|discriminate HU].
        destruct (IH items ltac:(lia) [] cpx op pr bfm fr b fuel tail d3 b3 evs3 Hi EU) as (more & F).
        injection HU as <- <- <-. exists more. cbn [map line_of app]. now rewrite F.
Qed.

Theorem C59_unordered : unordered_undamaged.
Proof.
  intros conv d [|[?|? ?|? ? ?|junk cp] items] tail H; try contradiction H. destruct H as [Hc Hi]. cbn [knows] in Hi.
  rewrite (open_spec conv) by auto. eexists. split; [reflexivity|]. intros d2 evs n HU. unfold decompressUnordered in HU.
  cbn [d_open negb d_free d_file f_rest d_printed d_bf d_good d_cp d_dict] in HU.
  destruct (allocateBufferFragment (d_free d)) as [b free].
  destruct (unordered_loop conv _ _ b) as [[[d3 b3] evs3]|] eqn:EU; [|discriminate HU].
  change (@nil dentry) with (dict_of []) in EU.
  destruct (unordered_front conv (length items) items (le_n _) [] cp true 0 (d_bf d) free b _ tail d3 b3 evs3 Hi EU) as (more & F).
  injection HU as <- <- <-. exists more. exact F.
Qed.
Print Assumptions C59_unordered.

(** ** Iterating *)
Lemma next_extent_front : forall conv n items, (length items <= n)%nat -> forall known cp op pr bfm fr fuel tail,
  items_ok conv known items -> bf_more bfm = false -> messages (file_lines cp items) <> [] ->
  (length (file_bytes items ++ tail) + 1 < fuel)%nat ->
  exists d' evs known' items' tid m ms,
    next_extent fuel (Decoder op (File (file_bytes items ++ tail) false) pr bfm true cp fr (dict_of known)) = Some (d', evs, false) /\
    Forall (fun e => e = EvNewExecution) evs /\ d_printed d' = pr /\ d_open d' = op /\ d_free d' = fr /\
    items_ok conv known' items' /\ at_msgs (d_bf d') tid (map fm_w (m :: ms)) /\ Forall (fmsg_ok conv known') (m :: ms) /\
    d_file d' = File (file_bytes items' ++ tail) false /\ d_good d' = true /\ d_dict d' = dict_of known' /\
    file_lines cp items = map line_of evs ++ map (show (d_cp d') tid) (m :: ms) ++ file_lines (d_cp d') items'.
Proof.
  intros conv. induction n as [|n IH]; intros items Hn known cp op pr bfm fr fuel tail Hi Hb HM Hf.
  - destruct items; [|cbn [length] in Hn; lia]. now elim HM.
  - destruct items as [|it items]; [now elim HM|].
    cbn [length] in Hn. destruct Hi as [Hit Hi].
    destruct (is_pad it) eqn:Hp.
    + destruct it as [bs|? ?|? ? ?|? ?]; try discriminate Hp. cbn [knows file_lines] in *.
      destruct bs as [|p bs]; [apply (IH items); auto; lia|].
      pose proof (drop_pads_length items) as [DL1 DL2].
      destruct (drop_pads_cases _ _ _ Hi) as [D0|(it & r & D1 & D2 & D3)].
      { rewrite <- drop_pads_lines, D0 in HM. now elim HM. }
      destruct fuel as [|fuel]; [lia|].
      pose proof (skip_any conv (IPad (p :: bs) :: items) known it r (S (length (p :: bs ++ file_bytes items ++ tail))) tail (conj Hit Hi)) as K.
      rewrite (file_cons (IPad (p :: bs)) items tail) in *. cbn [item_bytes] in *. inversion Hit as [|? ? [P1 P2] Hbs]; subst.
      cbn [app] in *. specialize (K D1 D2 ltac:(lia)).
      cbn [next_extent d_file f_eof d_good negb orb d_printed d_cp d_dict d_open d_bf d_free]. rewrite ?Hb. cbn [orb].
      unfold peekEntryType at 1. cbn [f_rest]. rewrite (pad_type p P1 P2).
      change (ET_INVALID =? ET_BUFFER_EXTENT) with false. change (ET_INVALID =? ET_CHECKPOINT) with false.
      change (ET_INVALID =? ET_LOG_MSGS_OR_DIC) with false. cbv iota. cbn [f_rest]. rewrite K.
      rewrite <- drop_pads_lines in *. rewrite D1 in *.
      eapply (IH (it :: r)); [lia| |auto|auto|].
      * rewrite <- D1. now apply drop_pads_ok.
      * cbn [app length] in Hf. rewrite !app_length in *. lia.
    + pose proof (item_nonempty _ _ _ Hit Hp) as Hne.
      destruct fuel as [|fuel]; [lia|]. rewrite file_cons in *. rewrite app_length in Hf.
      cbn [next_extent d_file f_eof d_good negb orb d_printed d_cp d_dict d_open d_bf d_free]. rewrite ?Hb. cbn [orb].
      rewrite (peek_item conv known) by auto.
      destruct it as [?|total ss|tid np ms|junk cpx]; [discriminate Hp| | |]; cbn [type_of knows file_lines] in *.
      * change (ET_LOG_MSGS_OR_DIC =? ET_BUFFER_EXTENT) with false. change (ET_LOG_MSGS_OR_DIC =? ET_CHECKPOINT) with false.
        change (ET_LOG_MSGS_OR_DIC =? ET_LOG_MSGS_OR_DIC) with true. cbv iota.
        rewrite (readDictionaryFragment_spec conv known) by auto.
        assert (dict_of known ++ map entry_of ss = dict_of (known ++ ss)) as -> by (unfold dict_of; now rewrite map_app).
        apply IH; auto; lia.
      * change (ET_BUFFER_EXTENT =? ET_BUFFER_EXTENT) with true. cbv iota.
        destruct Hit as (T1 & T2 & T3). cbn [item_bytes] in *.
        destruct (readBufferExtent_spec tid np (map fm_w ms) (file_bytes items ++ tail) bfm T1 (fmsgs_wm _ _ _ T3) T2) as (b' & -> & A).
        cbv iota. destruct ms as [|m ms].
        -- assert (M : bf_more b' = false) by apply A. cbn [map app] in *. apply IH; auto; lia.
        -- assert (M : bf_more b' = true) by apply A.
           destruct fuel as [|fuel]; [lia|]. cbn [next_extent d_bf]. rewrite M. cbn [orb].
           eexists _, [], known, items, tid, m, ms. split; [reflexivity|]. splits; try reflexivity; auto.
      * change (ET_CHECKPOINT =? ET_BUFFER_EXTENT) with false. change (ET_CHECKPOINT =? ET_CHECKPOINT) with true. cbv iota.
        rewrite (readDictionary_spec conv known) by auto.
        destruct (IH items ltac:(lia) [] cpx op pr bfm fr fuel tail Hi Hb HM ltac:(lia))
          as (d' & evs & known' & items' & tid & m & ms & E & F1 & F2 & F3 & F4 & F5 & F6 & F7 & F8 & F9 & F10 & F11).
        change (dict_of []) with (@nil dentry) in E. rewrite E.
        eexists d', _, known', items', tid, m, ms. split; [reflexivity|]. splits; auto.
        cbn [map line_of app]. now rewrite F11.
Qed.

Lemma iterate_front : forall conv n known cp pr bfm fr items tail tid ms,
  length (messages (map (show cp tid) ms ++ file_lines cp items)) = n ->
  at_msgs bfm tid (map fm_w ms) -> Forall (fmsg_ok conv known) ms -> items_ok conv known items ->
  exists d' evs, iterate conv n (Decoder true (File (file_bytes items ++ tail) false) pr bfm true cp fr (dict_of known)) = Some (d', evs, true) /\
    messages (map line_of evs) = messages (map (show cp tid) ms ++ file_lines cp items).
Proof.
  intros conv. induction n as [|n IH]; intros known cp pr bfm fr items tail tid ms Hn A Hms Hi.
  - eexists _, []. split; [reflexivity|]. apply length_zero_iff_nil in Hn. now rewrite Hn.
  - destruct ms as [|m ms].
    + assert (M : bf_more bfm = false) by apply A. cbn [map app] in *.
      rewrite iterate_S. unfold getNextLogStatement. cbn [d_bf d_open d_file f_eof d_good negb orb f_rest]. rewrite M.
      assert (HM : messages (file_lines cp items) <> []) by (intro X; rewrite X in Hn; discriminate Hn).
      destruct (next_extent_front conv (length items) items (le_n _) known cp true pr bfm fr (S (S (length (file_bytes items ++ tail)))) tail Hi M HM ltac:(lia))
        as (d1 & evs & known' & items' & tid' & m & ms & E & F1 & F2 & F3 & F4 & F5 & F6 & F7 & F8 & F9 & F10 & F11).
      rewrite E. unfold next_from. rewrite F10, F3, F8, F9, F2, F4.
      destruct (decompressNext_spec conv known' (d_bf d1) tid' m ms F6 F7) as (b' & dm & D1 & D2 & D3 & _). rewrite D1.
      inversion F7 as [|? ? Gm Gms]; subst.
      rewrite F11, messages_app, app_length, no_messages in Hn by auto. cbn [map app length Nat.add] in Hn.
      rewrite messages_cons in Hn. unfold show at 1 in Hn. cbn [app length] in Hn.
      destruct (IH known' (d_cp d1) (d_printed d1 + 1) b' (d_free d1) items' tail tid' ms ltac:(lia) D2 Gms F5) as (d' & evs' & I1 & I2).
      cbv beta iota zeta. rewrite I1.
      eexists _, _. split; [reflexivity|]. rewrite !map_app, F11. cbn [map app]. rewrite D3, !messages_app, I2.
      change (show (d_cp d1) tid' m :: map (show (d_cp d1) tid') ms ++ file_lines (d_cp d1) items')
        with ([show (d_cp d1) tid' m] ++ (map (show (d_cp d1) tid') ms ++ file_lines (d_cp d1) items')).
      rewrite (messages_app [show (d_cp d1) tid' m]), <- app_assoc. reflexivity.
    + assert (M : bf_more bfm = true) by apply A.
      destruct (decompressNext_spec conv known bfm tid m ms A Hms) as (b' & dm & D1 & D2 & D3 & _).
      inversion Hms as [|? ? Gm Gms]; subst. cbn [map app] in Hn. rewrite messages_cons in Hn. unfold show at 1 in Hn. cbn [app length] in Hn.
      destruct (IH known cp (pr + 1) b' fr items tail tid ms ltac:(lia) D2 Gms Hi) as (d' & evs' & I1 & I2).
      rewrite iterate_S. unfold getNextLogStatement. cbn [d_bf]. rewrite M. unfold next_from. cbn [d_bf d_dict]. rewrite D1.
      cbn [d_open d_file d_printed d_good d_cp d_free d_dict]. rewrite I1.
      eexists _, _. split; [reflexivity|]. cbn [map app]. rewrite D3.
      change (messages (show cp tid m :: ?x)) with (messages ([show cp tid m] ++ x)). now rewrite !messages_app, I2, messages_app.
Qed.

Theorem C59_iterate : iterate_undamaged.
Proof.
  intros conv d [|[?|? ?|? ? ?|junk cp] items] tail H Hb; try contradiction H. destruct H as [Hc Hi]. cbn [knows] in Hi.
  rewrite (open_spec conv) by auto.
  destruct (iterate_front conv _ [] cp 0 (d_bf d) (d_free d) items tail (bf_tid (d_bf d)) [] eq_refl) as (d2 & evs & E1 & E2); auto.
  - split; [reflexivity|exact Hb].
  - eexists _, d2, evs. split; [reflexivity|]. split; auto.
Qed.
Print Assumptions C59_iterate.

(** ** Ordered *)
(** Loading three passes that are in front of the damage. *)
Lemma load_front : forall conv sz items, (length items <= sz)%nat -> forall known cp op pr bfm fr st cst n fuel tail free' st' seg',
  items_ok conv known items -> one_execution items -> Forall2 (Forall2 (stands conv known)) st cst -> (n < 3)%nat ->
  a_load items (map bf_ts fr) st n cp = Some (Loaded seg' free' st' 3 false false cp []) ->
  (length (file_bytes items ++ tail) + 1 < fuel)%nat ->
  exists cst1 fr1 known',
   load_stages fuel (Decoder op (File (file_bytes items ++ tail) false) pr bfm true cp fr (dict_of known)) cst n
   = Some (Decoder op (File (file_bytes seg' ++ tail) false) pr bfm true cp fr1 (dict_of known'), cst1, 3%nat, false, []) /\
   Forall2 (Forall2 (stands conv known')) st' cst1 /\ map bf_ts fr1 = free' /\ items_ok conv known' seg' /\ (length seg' < length items)%nat.
Proof.
  intros conv. induction sz as [|sz IH]; intros items Hsz known cp op pr bfm fr st cst n fuel tail free' st' seg' Hi H1 HS Hn HL Hf.
  - destruct items; [|cbn [length] in Hsz; lia]. discriminate HL.
  - destruct items as [|it items]; [discriminate HL|].
    cbn [length] in Hsz. destruct Hi as [Hit Hi]. inversion H1 as [|? ? Hc H1']; subst.
    assert (NN : (n =? stagesToBuffer)%nat = false) by (apply Nat.eqb_neq; unfold stagesToBuffer; lia).
    destruct (is_pad it) eqn:Hp.
    + destruct it as [bs|? ?|? ? ?|? ?]; try discriminate Hp. cbn [knows a_load] in *.
      destruct bs as [|p bs].
      { destruct (IH items ltac:(lia) known cp op pr bfm fr st cst n fuel tail free' st' seg' Hi H1' HS Hn HL Hf) as (c1 & f1 & k1 & E1 & E2 & E3 & E4 & E5).
        exists c1, f1, k1. splits; auto. cbn [length]. lia. }
      pose proof (drop_pads_length items) as [DL1 DL2]. rewrite <- a_load_pads in HL.
      destruct (drop_pads_cases _ _ _ Hi) as [D0|(it & r & D1 & D2 & D3)]; [rewrite D0 in HL; discriminate HL|].
      destruct fuel as [|fuel]; [lia|].
      pose proof (skip_any conv (IPad (p :: bs) :: items) known it r (S (length (p :: bs ++ file_bytes items ++ tail))) tail (conj Hit Hi)) as K.
      rewrite (file_cons (IPad (p :: bs)) items tail) in *. cbn [item_bytes] in *. inversion Hit as [|? ? [P1 P2] Hbs]; subst.
      cbn [app] in *. specialize (K D1 D2 ltac:(lia)).
      cbn [load_stages d_file f_eof d_good negb orb]. unfold load_entry. cbn [d_file d_open d_printed d_bf d_good d_cp d_free d_dict].
      unfold peekEntryType at 1. cbn [f_rest]. rewrite (pad_type p P1 P2).
      change (ET_INVALID =? ET_BUFFER_EXTENT) with false. change (ET_INVALID =? ET_CHECKPOINT) with false.
      change (ET_INVALID =? ET_LOG_MSGS_OR_DIC) with false. cbv iota. cbn [f_rest]. rewrite K.
      cbn [d_file f_eof orb d_good negb andb]. rewrite NN.
      pose proof (drop_pads_ok _ _ _ Hi) as Hd.
      assert (O' : one_execution (drop_pads items)).
      { clear - H1'. induction items as [|[?|? ?|? ? ?|? ?] items IH]; cbn [drop_pads]; auto. inversion H1'; auto. }
      rewrite D1 in *.
      destruct (IH (it :: r) ltac:(lia) known cp op pr bfm fr st cst n fuel tail free' st' seg' Hd O' HS Hn HL) as (c1 & f1 & k1 & E1 & E2 & E3 & E4 & E5).
      { cbn [app length] in Hf. rewrite !app_length in *. lia. }
      rewrite E1. exists c1, f1, k1. splits; auto. cbn [length] in *. lia.
    + pose proof (item_nonempty _ _ _ Hit Hp) as Hne.
      destruct fuel as [|fuel]; [lia|]. rewrite file_cons in *. rewrite app_length in Hf.
      cbn [load_stages d_file f_eof d_good negb orb]. unfold load_entry. cbn [d_file d_open d_printed d_bf d_good d_cp d_free d_dict].
      rewrite (peek_item conv known) by auto.
      destruct it as [?|total ss|tid np ms|junk cpx]; [discriminate Hp| | |discriminate Hc]; cbn [type_of knows a_load] in *.
      * change (ET_LOG_MSGS_OR_DIC =? ET_BUFFER_EXTENT) with false. change (ET_LOG_MSGS_OR_DIC =? ET_CHECKPOINT) with false.
        change (ET_LOG_MSGS_OR_DIC =? ET_LOG_MSGS_OR_DIC) with true. cbv iota.
        rewrite (readDictionaryFragment_spec conv known) by auto.
        assert (dict_of known ++ map entry_of ss = dict_of (known ++ ss)) as -> by (unfold dict_of; now rewrite map_app).
        cbn [d_file f_eof orb d_good negb andb]. rewrite NN.
        destruct (IH items ltac:(lia) (known ++ ss) cp op pr bfm fr st cst n fuel tail free' st' seg' Hi H1' (forall2_mono _ _ _ _ _ HS) Hn HL ltac:(lia))
          as (c1 & f1 & k1 & E1 & E2 & E3 & E4 & E5).
        rewrite E1. exists c1, f1, k1. splits; auto. cbn [length]. lia.
      * change (ET_BUFFER_EXTENT =? ET_BUFFER_EXTENT) with true. cbv iota.
        destruct Hit as (T1 & T2 & T3). cbn [item_bytes] in *.
        destruct (allocateBufferFragment fr) as [b free] eqn:EA.
        assert (EB : bf_ts b = hd 0 (map bf_ts fr) /\ map bf_ts free = tl (map bf_ts fr)).
        { destruct fr; cbn [allocateBufferFragment] in EA; injection EA as <- <-; split; reflexivity. }
        destruct EB as [EB1 EB2].
        destruct (readBufferExtent_spec tid np (map fm_w ms) (file_bytes items ++ tail) b T1 (fmsgs_wm _ _ _ T3) T2) as (b' & ER & A).
        rewrite ER. cbn [d_file f_eof orb d_good negb andb].
        assert (SB : stands conv known (AFrag tid ms (hd 0 (map bf_ts fr))) b').
        { unfold stands, akey. cbn [a_tid a_ms a_stale]. splits; auto. destruct ms as [|m ms].
          - rewrite (readBufferExtent_stale _ _ _ _ _ _ ER); auto. apply A.
          - destruct A as (_ & _ & _ & A3 & _). exact A3. }
        assert (HS' := push_sim conv known st cst n _ _ HS SB). rewrite orb_false_r. unfold stagesToBuffer.
        set (n' := if np then S n else n) in *. destruct (n' =? 3)%nat eqn:E3.
        -- apply Nat.eqb_eq in E3. injection HL as <- <- <- _. rewrite E3.
           eexists _, _, known. split; [reflexivity|]. splits; auto.
        -- assert (Hn' : (n' < 3)%nat) by (apply Nat.eqb_neq in E3; subst n'; destruct np; lia).
           rewrite <- EB2 in HL.
           destruct (IH items ltac:(lia) known cp op pr bfm free _ _ n' fuel tail free' st' seg' Hi H1' HS' Hn' HL ltac:(lia)) as (c1 & f1 & k1 & F1 & F2 & F3 & F4 & F5).
           rewrite F1. exists c1, f1, k1. splits; auto. cbn [length]. lia.
Qed.

Lemma load_pushed : forall items free st n cp l, a_load items free st n cp = Some l -> one_execution items -> three st -> (n < 3)%nat ->
  l_must l = false -> concat (l_stages l) <> [].
Proof.
  induction items as [|[?|? ?|tid np ms|junk cpx] items IH]; intros free st n cp l H H1 H3 Hn HM; cbn [a_load] in H; inversion H1 as [|? ? Hc H1']; subst; eauto.
  - injection H as <-. discriminate HM.
  - destruct ((if np then S n else n) =? 3)%nat eqn:E.
    + injection H as <-. cbn [l_stages]. intro X.
      assert (In (AFrag tid ms (hd 0 free)) []) as []. rewrite <- X. apply in_concat_nth. exists n. unfold push_stage. rewrite set_nth_nth by auto.
      rewrite Nat.eqb_refl. apply in_or_app. right. now left.
    + apply Nat.eqb_neq in E. eapply IH; eauto; [unfold push_stage; now apply set_nth_three|destruct np; lia].
  - discriminate Hc.
Qed.

Lemma deplete_one : forall cp pick k st k' st' n' fr' ls, heap_front pick -> flushed st 3 -> concat st <> [] ->
  deplete akey (anext cp) pick (S (weight amu st)) k false st 3 [] = Some (k', st', n', fr', ls) ->
  n' = 2%nat /\ forall i, incl (msgs_of (nth i st' [])) (msgs_of (nth (S i) st [])).
Proof.
  intros cp pick k st k' st' n' fr' ls Hp HF HC HD.
  set (Inv := fun (s : list (list afrag)) (m : nat) (fr : list afrag) (ac : list oline) => m = 3%nat /\ concat s <> [] /\
    (forall i, incl (msgs_of (nth i s [])) (msgs_of (nth i st [])))).
  set (Q := fun (s : list (list afrag)) (m : nat) (fr : list afrag) (ac : list oline) => m = 2%nat /\
    (forall i, incl (msgs_of (nth i s [])) (msgs_of (nth (S i) st [])))).
  destruct (deplete_rule akey (anext cp) pick false amu Inv Q Hp (anext_total cp)) with (fuel := S (weight amu st)) (k := k) (st := st) (n := 3%nat) (fr := @nil afrag) (acc := @nil oline)
    as (k2 & st2 & n2 & fr2 & evs & E & HQ & _); auto.
  - intros s m fr ac i j b b' more evs HFs (-> & HI & HS) Hi Hb Hmin HN. cbv zeta.
    assert (Ib : In b (nth i s [])) by (eapply nth_error_In; eauto).
    set (s1 := set_nth i (remove_nth j (nth i s []) ++ (if more then [b'] else [])) s) in *.
    assert (HF1 : flushed s1 3) by (apply step_flushed; auto).
    pose proof (anext_inv _ _ _ _ _ HN) as HA.
    assert (SUB : forall i', incl (msgs_of (nth i' s1 [])) (msgs_of (nth i' s []))).
    { intros i' x Hx. apply in_msgs in Hx. destruct Hx as (f & Hf & Hx). apply in_msgs. destruct (step_in _ _ _ _ _ _ _ _ HFs Hi Hf) as [H|(-> & _ & ->)]; [eauto|].
      exists b. split; auto. destruct HA as [(_ & -> & _)|(m1 & r & EM & -> & _)]; [auto|]. cbn [a_ms] in Hx. rewrite EM. now right. }
    destruct (three_inv _ _ (proj1 HF1)) as (x & y & z & E1). rewrite E1 in *. cbn [nth]. destruct x as [|f x]; cbn [is_empty].
    + split; [reflexivity|]. intros [|[|[|i']]] w Hw; cbn in Hw; try contradiction Hw.
      * now apply HS, (SUB 1%nat).
      * now apply HS, (SUB 2%nat).
      * destruct i'; contradiction Hw.
    + split; [reflexivity|split; [discriminate|]]. intros i' w Hw. now apply HS, SUB.
  - intros s m fr ac HFs (_ & HI & _) HE. elim HI. destruct (three_inv _ _ (proj1 HFs)) as (x & y & z & ->).
    pose proof (HE 0%nat). pose proof (HE 1%nat). pose proof (HE 2%nat). cbn [nth] in *. now subst.
  - split; [reflexivity|split; auto]. intros i w Hw. exact Hw.
  - destruct (deplete_det _ _ _ _ _ _ _ _ _ _ _ _ _ _ _ _ _ HD E) as (-> & -> & -> & -> & ->). exact HQ.
Qed.

(** The messages of the last [k] of some passes. *)
Definition last_passes {A} (k : nat) (ps : list (list A)) : list A := concat (skipn (length ps - k) ps).

Lemma last_three : forall (a b c s t : list fmsg) ps, incl s b -> incl t c -> (1 <= length ps)%nat ->
  incl (last_passes 3 (s :: t :: ps)) (last_passes 3 (a :: b :: c :: ps)).
Proof.
  intros a b c s t ps Hs Ht Hl. unfold last_passes. destruct ps as [|p [|q ps]]; cbn [length] in *; [lia| |].
  - cbn [Nat.sub skipn concat]. intros x Hx. rewrite !in_app_iff in *. intuition auto.
  - replace (S (S (S (S (S (length ps))))) - 3)%nat with (S (S (length ps))) by lia.
    replace (S (S (S (S (length ps)))) - 3)%nat with (S (length ps)) by lia. cbn [skipn].
    destruct ps as [|r ps]; cbn [length skipn concat].
    + intros x Hx. rewrite !in_app_iff in *. intuition auto.
    + intros x Hx. exact Hx.
Qed.

Lemma pool_total : forall st n items m, behind st n -> In m (msgs_of (concat st) ++ flat_map item_msgs items) -> exists i, In m (nth i (total st n items) []).
Proof.
  intros st n items m (H3 & Hn & Hb) H. destruct (three_inv _ _ H3) as (a & b & c & ->). cbn [concat] in H. rewrite app_nil_r, !msgs_of_app, !in_app_iff in H.
  unfold total. destruct (passes_cons items) as (p & ps & EP). rewrite EP.
  assert (HP : In m (flat_map item_msgs items) -> exists j, In m (nth j (p :: ps) [])) by (rewrite <- EP; apply passes_in).
  destruct n as [|[|[|]]]; try lia; cbn [firstn map app nth].
  - pose proof (Hb 1%nat ltac:(lia)) as F1. pose proof (Hb 2%nat ltac:(lia)) as F2. cbn [nth] in F1, F2. subst b c.
    destruct H as [[H|[H|H]]|H]; try contradiction H; [exists 0%nat; apply in_or_app; now left|].
    destruct (HP H) as ([|j] & Hj); cbn [nth] in Hj; [exists 0%nat; apply in_or_app; now right|now exists (S j)].
  - pose proof (Hb 2%nat ltac:(lia)) as F2. cbn [nth] in F2. subst c.
    destruct H as [[H|[H|H]]|H]; try contradiction H; [now exists 0%nat|exists 1%nat; apply in_or_app; now left|].
    destruct (HP H) as ([|j] & Hj); cbn [nth] in Hj; [exists 1%nat; apply in_or_app; now right|now exists (S (S j))].
  - destruct H as [[H|[H|H]]|H]; [now exists 0%nat|now exists 1%nat|exists 2%nat; apply in_or_app; now left|].
    destruct (HP H) as ([|j] & Hj); cbn [nth] in Hj; [exists 2%nat; apply in_or_app; now right|now exists (S (S (S j)))].
Qed.

Lemma nth_in_concat : forall A (l : list (list A)) i x, In x (nth i l []) -> In x (concat l).
Proof. intros. apply in_concat_nth. eauto. Qed.

Lemma content_in : forall cp fs l, In l (content cp fs) -> exists tid m, l = show cp tid m /\ In m (msgs_of fs).
Proof.
  intros cp fs l H. unfold content in H. apply in_flat_map in H. destruct H as (f & Hf & H). apply in_map_iff in H. destruct H as (m & <- & Hm).
  exists (a_tid f), m. split; [reflexivity|]. apply in_msgs. eauto.
Qed.

Lemma lines_in : forall cp items l, one_execution items -> In l (file_lines cp items) -> exists tid m, l = show cp tid m /\ In m (flat_map item_msgs items).
Proof.
  intros cp. induction items as [|[?|? ?|tid np ms|? ?] items IH]; intros l H1 H; [contradiction H| | | |]; inversion H1 as [|? ? Hc H1']; subst; cbn [file_lines flat_map item_msgs app] in *; auto.
  - apply in_app_or in H. destruct H as [H|H].
    + apply in_map_iff in H. destruct H as (m & <- & Hm). exists tid, m. split; [reflexivity|]. apply in_or_app. now left.
    + destruct (IH l H1' H) as (t & m & -> & Hm). exists t, m. split; [reflexivity|]. apply in_or_app. now right.
  - discriminate Hc.
Qed.

Lemma run_front : forall conv pick, heap_front pick -> forall sz items, (length items <= sz)%nat ->
  forall cfuel k known cp op pr bfm fr st cst n tail d' evs,
  items_ok conv known items -> one_execution items -> Forall2 (Forall2 (stands conv known)) st cst -> flushed st n -> (n <= 2)%nat ->
  ordered_loop conv pick cfuel k (Decoder op (File (file_bytes items ++ tail) false) pr bfm true cp fr (dict_of known)) cst n = Some (d', evs) ->
  exists ls1 ls2 rest, map line_of evs = ls1 ++ ls2 /\ Permutation (ls1 ++ rest) (content cp (concat st) ++ file_lines cp items) /\
    Forall (fun l => exists tid m, l = show cp tid m /\ In m (last_passes 3 (total st n items))) rest.
Proof.
  intros conv pick Hp. induction sz as [sz IH] using lt_wf_ind. intros items Hsz cfuel k known cp op pr bfm fr st cst n tail d' evs Hi H1 HS HF Hn HR.
  assert (HB := behind_flushed _ _ HF Hn).
  destruct (load_seg items [] H1 (map bf_ts fr) st n cp HB) as [(free' & st' & seg' & E & L & N & O)|(free' & st' & n' & E & B & L & N)];
    rewrite app_nil_r in E.
  - rewrite app_nil_r in E. destruct cfuel as [|cfuel]; [discriminate HR|]. cbn [ordered_loop d_file f_eof d_good negb orb f_rest] in HR.
    destruct (load_front conv (length items) items (le_n _) known cp op pr bfm fr st cst n (S (S (length (file_bytes items ++ tail)))) tail free' st' seg' Hi H1 HS ltac:(lia) E ltac:(lia))
      as (cst1 & fr1 & known' & EL & S1 & FR1 & I1 & LN).
    rewrite EL in HR. cbn [d_open d_file d_printed d_bf d_good d_cp d_free d_dict] in HR.
    assert (F3 : flushed st' 3) by (split; [apply L|split; [lia|]]; intros i Hi'; apply nth_overflow; destruct L as (L1 & _); unfold three in L1; lia).
    pose proof (load_pushed _ _ _ _ _ _ E H1 (proj1 HF) ltac:(lia) eq_refl) as HC. cbn [l_stages] in HC.
    destruct (deplete_shape cp pick k false st' 3 Hp F3) as (k' & st2 & n2 & fr2 & ls & ED & FL2 & N2 & _).
    destruct (deplete_one _ _ _ _ _ _ _ _ _ Hp F3 HC ED) as (-> & SUB).
    destruct (deplete_sim akey bf_ts (anext cp) (next_message conv cp (dict_of known')) (stands conv known') line_of pick) with
      (fuel := S (weight amu st')) (fuel' := deplete_fuel cst1) (k := k) (must := false) (stA := st') (stB := cst1) (n := 3%nat) (frA := @nil afrag) (frB := @nil bfrag)
      (k' := k') (st' := st2) (n' := 2%nat) (fr' := fr2) (evs := ls)
      as (cst2 & cfr2 & evs2 & ED2 & S2 & F2 & L2); auto.
    { intros a b (_ & _ & HK). auto. }
    { intros a b a' more evs0 HR1 HN. now apply next_sim with (f := a). }
    { eapply deplete_fuel_ok; eauto. }
    rewrite ED2 in HR. cbv zeta in HR.
    destruct (ordered_loop conv pick cfuel k' _ cst2 2) as [[d3 evs3]|] eqn:ER; [|discriminate HR]. injection HR as <- <-.
    destruct (IH (length seg') ltac:(lia) seg' (le_n _) _ _ _ _ _ _ _ _ _ _ _ _ _ _ I1 O S2 FL2 ltac:(lia) ER) as (ls1 & ls2 & rest & R1 & R2 & R3).
    exists (ls ++ ls1), ls2, rest. splits.
    + cbn [app]. rewrite map_app, L2, R1. now rewrite app_assoc.
    + destruct L as (_ & _ & L3 & _). rewrite <- L3, <- app_assoc. eapply Permutation_trans; [apply Permutation_app_head, R2|].
      rewrite app_assoc. apply Permutation_app_tail. eapply deplete_perm; eauto.
    + destruct L as (L1 & L2' & _). rewrite <- L2'. destruct (three_inv _ _ L1) as (a & b & c & ->). rewrite total_three.
      destruct (flushed_two _ FL2) as (t0 & t1 & ->). rewrite total_two in R3.
      revert R3. apply Forall_impl. intros l (tid & m & El & Hm). exists tid, m. split; auto. revert Hm. apply last_three.
      * exact (SUB 0%nat).
      * exact (SUB 1%nat).
      * destruct (passes_cons seg') as (p & ps & ->). cbn [length]. lia.
  - exists [], (map line_of evs), (content cp (concat st) ++ file_lines cp items). splits; auto. apply Forall_forall. intros l Hl.
    assert (HM : exists tid m, l = show cp tid m /\ In m (msgs_of (concat st) ++ flat_map item_msgs items)).
    { apply in_app_or in Hl. destruct Hl as [Hl|Hl].
      - destruct (content_in _ _ _ Hl) as (tid & m & -> & Hm). exists tid, m. split; auto. apply in_or_app. now left.
      - destruct (lines_in _ _ _ H1 Hl) as (tid & m & -> & Hm). exists tid, m. split; auto. apply in_or_app. now right. }
    destruct HM as (tid & m & -> & Hm). exists tid, m. split; auto. destruct (pool_total _ _ _ _ HB Hm) as (i & Hi').
    unfold last_passes. destruct L as (L1 & L2 & _). rewrite <- L2 in *.
    assert (LT : (length (total st' n' []) - 3 = 0)%nat).
    { unfold total. cbn [passes]. rewrite app_length, map_length, firstn_length. cbn [length]. destruct B as (_ & B & _). lia. }
    rewrite LT. cbn [skipn]. eapply nth_in_concat; eauto.
Qed.

(** What is in front of the last three passes, the unfinished one included, is
    printed before the rest. *)
Theorem C59_ordered_partial : forall conv pick d junk cp items tail, heap_front pick -> file_ok conv (ICheckpoint junk cp :: items) -> one_execution items ->
  exists d1, d_open_file d (file_bytes (ICheckpoint junk cp :: items) ++ tail) = Some (d1, true) /\
    forall d2 evs n, decompressTo conv pick d1 = Some (d2, evs, n) ->
    exists first later missing, map line_of evs = first ++ later /\ Permutation (first ++ missing) (file_lines cp items) /\
      Forall (fun l => exists tid m, l = show cp tid m /\ In m (last_passes 3 (passes items))) missing.
Proof.
  intros conv pick d junk cp items tail Hp [Hc Hi] H1. cbn [knows] in Hi. rewrite (open_spec conv) by auto. eexists. split; [reflexivity|].
  intros d2 evs n HR. unfold decompressTo in HR. cbn [d_open negb d_file f_rest] in HR.
  destruct (ordered_loop conv pick _ 0 _ [[]; []; []] 0) as [[d3 evs3]|] eqn:ER; [|discriminate HR]. injection HR as <- <- <-.
  change (@nil dentry) with (dict_of []) in ER.
  destruct (run_front conv pick Hp (length items) items (le_n _) _ _ _ _ _ _ _ _ [[]; []; []] _ _ _ _ _ Hi H1 ltac:(repeat constructor) flushed_start ltac:(lia) ER)
    as (ls1 & ls2 & rest & R1 & R2 & R3).
  rewrite total_start in R3. exists ls1, ls2, rest. splits; auto.
Qed.
Print Assumptions C59_ordered_partial.

(** ** Ordered decompression loses messages in front of damage *)
Definition two_passes : list item := [ICheckpoint 5 (demo_cp 10); IDict 1 [fsite 7]; pass 0 7 10; pass 0 7 20].

(** An extent that claims to have four gigabytes. *)
Definition bad_extent : list Z := [2; 255; 255; 255; 255].

Lemma two_passes_ok : file_ok Prop_Message.show two_passes.
Proof. apply passes_file_ok. unfold pass. demo_extents. Qed.

Theorem C59_refuted : ~ C59_full.
Proof.
  intros (_ & _ & F). destruct (F Prop_Message.show pick_first new_decoder two_passes bad_extent pick_first_heap two_passes_ok) as (d1 & E & H).
  - repeat constructor.
  - assert (R : option_map (fun p => option_map (fun q => map line_of (snd (fst q))) (decompressTo Prop_Message.show pick_first (fst p)))
      (d_open_file new_decoder (file_bytes two_passes ++ bad_extent)) = Some (Some [shown_n 10 10 7])) by (vm_compute; reflexivity).
    rewrite E in R. cbn [option_map fst] in R.
    destruct (decompressTo Prop_Message.show pick_first d1) as [[[d2 evs] n]|] eqn:ED; [|discriminate R].
    specialize (H d2 evs n eq_refl). cbn [option_map fst snd] in R. injection R as R. rewrite R in H.
    destruct (H (match shown_n 10 20 7 with LMsg s => s | LNewExecution => Shown (demo_cp 0) 0 0 0 [] 0 0 [] end)) as [X|[]].
    + right. left. reflexivity.
    + discriminate X.
Qed.
Print Assumptions C59_refuted.

(** The same file read in the three ways. *)
Example C59_instance :
  let f := d_open_file new_decoder (file_bytes two_passes ++ bad_extent) in
  option_map (fun p => option_map (fun q => (map line_of (snd (fst q)), snd q)) (decompressUnordered Prop_Message.show (fst p))) f
    = Some (Some ([shown_n 10 10 7; shown_n 10 20 7], 2)) /\
  option_map (fun p => option_map (fun q => (map line_of (snd (fst q)), snd q)) (iterate Prop_Message.show 2 (fst p))) f
    = Some (Some ([shown_n 10 10 7; shown_n 10 20 7], true)) /\
  option_map (fun p => option_map (fun q => (map line_of (snd (fst q)), snd q)) (decompressTo Prop_Message.show pick_first (fst p))) f
    = Some (Some ([shown_n 10 10 7], 1)).
Proof. cbv zeta. splits; vm_compute; reflexivity. Qed.

(** Four passes, damage behind them: the first two are printed for certain, as
    C59_ordered_partial says.  So is the third, because it leads when the damage
    is met; the fourth is lost. *)
Definition four_passes : list item :=
  [ICheckpoint 5 (demo_cp 10); IDict 1 [fsite 7]; pass 0 7 10; pass 0 7 20; pass 0 7 30; pass 0 7 40].

Lemma four_passes_ok : file_ok Prop_Message.show four_passes.
Proof. apply passes_file_ok. unfold pass. demo_extents. Qed.

Example C59_four : file_ok Prop_Message.show four_passes /\ last_passes 3 (passes (tl four_passes)) = [fmsg_n 0 30 11 7; fmsg_n 0 40 11 7] /\
  option_map (fun p => option_map (fun q => (map line_of (snd (fst q)), snd q)) (decompressTo Prop_Message.show pick_first (fst p)))
    (d_open_file new_decoder (file_bytes four_passes ++ bad_extent)) = Some (Some ([shown_n 10 10 7; shown_n 10 20 7; shown_n 10 30 7], 3)).
Proof. split; [exact four_passes_ok|]. split; [reflexivity|vm_compute; reflexivity]. Qed.
