(** Ordered decompression and iteration over the log of a program the
    preprocessor handled: the messages as those of a file of FileSpec.v, which
    OrderTheory.v orders. *)
From Verif Require Import Base BaseProofs Packer PackerProofs LogHeader LogHeaderProofs Chars Fmt FmtProofs MicroCode Args ArgsProofs Printf Decode DecodeProofs
  Encoder Wire EncoderProofs Decoder FileSpec DecoderProofs Ordered OrderedProofs OrderSpec OrderTheory Prop_Ordered MetaDict MicroMem MemDecoder Prop_MetaDict PreFile
  Prop_MemDecoder.
From Coq Require Import Permutation Sorted.
Ltac Zify.zify_post_hook ::= Z.div_mod_to_equations.

Definition site_of (mc : microcode) : site := Site (mc_level mc) (mc_line mc) (mc_file mc) [] 0 [] [].
Definition fm (f : pmsg) : fmsg := FMsg (pm_w f) (site_of (pm_mc f)) (pm_text f).
Definition it_of (p : pitem) : item :=
  match p with PPad bs => IPad bs | PExtent tid np ms => IExtent tid np (map fm ms) end.

Lemma fm_ws : forall ms, map fm_w (map fm ms) = map pm_w ms.
Proof. intros. rewrite map_map. reflexivity. Qed.

Lemma show_fm : forall cp tid ms, map (show cp tid) (map fm ms) = map (pshow cp tid) ms.
Proof. intros. rewrite map_map. reflexivity. Qed.

Lemma items_lines : forall cp items, file_lines cp (map it_of items) = plines cp items.
Proof.
  induction items as [|[bs|tid np ms] items IH]; [reflexivity| |]; cbn [map it_of file_lines plines]; [exact IH|].
  now rewrite IH, show_fm.
Qed.

Lemma items_one : forall items, one_execution (map it_of items).
Proof. induction items as [|[bs|tid np ms] items IH]; constructor; auto. Qed.

Lemma items_nonpads : forall conv mcs items, Forall (pitem_ok conv mcs) items -> (nonpads (map it_of items) <= length (pfile items))%nat.
Proof.
  intros conv mcs items H. induction H as [|[bs|tid np ms] items Hit H IH]; unfold nonpads, pfile in *; cbn [map it_of filter is_pad negb length concat]; [lia| |];
    rewrite app_length; [lia|]. destruct Hit as (T & _). destruct (extent_head tid np (map pm_w ms) T) as (b & r & E & _).
  cbn [pitem_bytes]. rewrite E. cbn [length]. lia.
Qed.

(** A fragment of the decoder that stands for an abstract one. *)
Definition pstands (conv : rconv -> list Z) (mcs : list microcode) (f : afrag) (b : bfrag) : Prop :=
  exists ms, a_ms f = map fm ms /\ at_msgs b (a_tid f) (map pm_w ms) /\ Forall (pmsg_ok conv mcs) ms /\ bf_ts b = akey f.

Lemma m_next_stale : forall lim conv st b b' o, m_decompressNext lim conv st b = Some (b', o) -> bf_more b' = false -> bf_ts b' = bf_ts b.
Proof.
  intros lim conv st b b' o H HM. unfold m_decompressNext in H.
  destruct ((bf_end b <? bf_pos b) || negb (bf_more b)); [injection H as <- _; reflexivity|].
  destruct (metadata_of lim st _) as [mc|]; [|discriminate H].
  destruct (print_message conv mc _ _ _) as [[[text pushed] pos]|]; [|discriminate H]. cbv zeta in H.
  destruct (bf_end b <=? pos); [injection H as <- _; reflexivity|].
  destruct (decompressLogHeader _ _ _) as [[[id t] pos']|]; injection H as <- _; [discriminate HM|reflexivity].
Qed.

Lemma m_next_sim : forall lim conv st D cp f b f' more evs, uses lim st D -> pstands conv (map fst D) f b -> anext cp f = Some (f', more, evs) ->
  exists b' evs', m_next_message lim conv cp st b = Some (b', more, evs') /\ pstands conv (map fst D) f' b' /\ map line_of evs' = evs.
Proof.
  intros lim conv st D cp [tid fms stale] b f' more evs HU (ms & EM & A & Hok & K) H. unfold anext, akey in *. cbn [a_ms a_tid a_stale] in *. subst fms.
  unfold m_next_message. destruct ms as [|m ms]; cbn [map] in *.
  - injection H as <- <- <-. destruct A as [A1 A2]. unfold m_decompressNext. rewrite A2.
    replace ((bf_end b <? bf_pos b) || negb false) with true by (rewrite orb_true_r; reflexivity).
    eexists _, _. split; [reflexivity|]. split; [|reflexivity]. exists []. unfold at_msgs, akey. cbn [a_ms a_tid map bf_tid bf_more bf_ts a_stale]. auto.
  - injection H as <- <- <-. destruct (m_next_spec lim conv st D b tid m ms HU A Hok) as (b' & dm & E & A' & LN & _).
    rewrite E. exists b', [EvMsg cp dm]. split; [|split; [|cbn [map]; rewrite LN; reflexivity]].
    + repeat f_equal. destruct A' as [_ A']. destruct ms as [|m' ms]; cbn [map] in A'; [rewrite A'; reflexivity|].
      destruct A' as [-> _]. reflexivity.
    + inversion Hok as [|? ? _ Hms]; subst. exists ms. unfold akey. cbn [a_ms a_tid a_stale]. splits; auto.
      destruct ms as [|m' ms]; cbn [map] in *.
      * rewrite (m_next_stale _ _ _ _ _ _ E) by apply A'. exact K.
      * destruct A' as (_ & _ & _ & -> & _). reflexivity.
Qed.

(** What the loader does at the end of the file. *)
Lemma m_load_end : forall lim conv mcs op pr bfm cp fr stm st cst n fuel tail, ptorn tail ->
  Forall2 (Forall2 (pstands conv mcs)) st cst -> (1 < fuel)%nat ->
  exists g fr1, m_load_stages lim fuel (MDecoder op (File tail false) pr bfm true cp fr stm) cst n =
  Some (MDecoder op (File [] true) pr bfm g cp fr1 stm, cst, flush_n st n, true, []).
Proof.
  intros lim conv mcs op pr bfm cp fr stm st cst n fuel tail HT HS Hf. destruct fuel as [|fuel]; [lia|].
  cbn [m_load_stages md_file f_eof md_good negb orb]. unfold m_load_entry.
  destruct tail as [|b0 r0].
  - cbn [md_file peekEntryType f_rest].
    change (ET_INVALID =? ET_BUFFER_EXTENT) with false. change (ET_INVALID =? ET_CHECKPOINT) with false.
    change (ET_INVALID =? ET_LOG_MSGS_OR_DIC) with false. cbn [skip_padding f_eof md_file orb md_good negb length f_rest].
    unfold flush_n. rewrite (forall2_empty _ _ _ _ _ (forall2_nth _ _ _ n HS)).
    cbn [md_open md_printed md_bf md_cp md_free md_st andb]. exists true, fr. destruct (is_empty (nth n cst [])); reflexivity.
  - cbn [md_file md_open md_printed md_bf md_good md_cp md_free md_st].
    destruct (ptorn_head _ HT) as [E|(b1 & r1 & E & T)]; [discriminate E|]. injection E as <- <-.
    unfold peekEntryType. cbn [f_rest]. rewrite T. change (ET_BUFFER_EXTENT =? ET_BUFFER_EXTENT) with true. cbv iota.
    destruct (allocateBufferFragment fr) as [b free].
    destruct (extent_torn (b0 :: r0) b HT ltac:(discriminate)) as (b' & RT & _). rewrite RT.
    cbn [md_file f_eof orb md_good negb andb].
    unfold flush_n. rewrite (forall2_empty _ _ _ _ _ (forall2_nth _ _ _ n HS)). exists false, free. destruct (is_empty (nth n cst [])); reflexivity.
Qed.

Lemma a_load_it : forall items free st n cp, a_load (map it_of (pdrop items)) free st n cp = a_load (map it_of items) free st n cp.
Proof. induction items as [|[bs|tid np ms] items IH]; intros; cbn [pdrop map it_of a_load]; auto. Qed.

Lemma m_load_sim : forall lim conv stm D, uses lim stm D -> forall sz items, (length items <= sz)%nat -> forall cp op pr bfm fr st cst n tail fuel l,
  Forall (pitem_ok conv (map fst D)) items -> ptorn tail -> Forall2 (Forall2 (pstands conv (map fst D))) st cst -> (n < 3)%nat ->
  a_load (map it_of items) (map bf_ts fr) st n cp = Some l -> (length (pfile items ++ tail) + 1 < fuel)%nat ->
  exists g f1 fr1 cst1 items',
   m_load_stages lim fuel (MDecoder op (File (pfile items ++ tail) false) pr bfm true cp fr stm) cst n
   = Some (MDecoder op f1 pr bfm g cp fr1 stm, cst1, l_n l, l_must l, []) /\
   l_lines l = [] /\ l_cp l = cp /\ Forall2 (Forall2 (pstands conv (map fst D))) (l_stages l) cst1 /\
   (l_done l = false -> g = true /\ f1 = File (pfile items' ++ tail) false /\ map bf_ts fr1 = l_free l /\ l_items l = map it_of items' /\
      Forall (pitem_ok conv (map fst D)) items') /\
   (l_done l = true -> l_must l = true /\ f_eof f1 = true).
Proof.
  intros lim conv stm D HU. induction sz as [|sz IH]; intros items Hsz cp op pr bfm fr st cst n tail fuel l Hi HT HS Hn HL Hf.
  - destruct items; [|cbn [length] in Hsz; lia]. cbn [pfile map concat a_load app] in *.
    injection HL as <-. cbn [l_items l_free l_stages l_n l_must l_done l_cp l_lines].
    destruct (m_load_end lim conv _ op pr bfm cp fr stm st cst n fuel tail HT HS ltac:(lia)) as (g & fr1 & ->).
    exists g, (File [] true), fr1, cst, []. splits; auto; discriminate.
  - destruct items as [|it items]; [exact (IH [] ltac:(cbn [length]; lia) cp op pr bfm fr st cst n tail fuel l Hi HT HS Hn HL Hf)|].
    cbn [length] in Hsz. inversion Hi as [|? ? Hit Hi']; subst.
    assert (NN : (n =? stagesToBuffer)%nat = false) by (apply Nat.eqb_neq; unfold stagesToBuffer; lia).
    destruct it as [bs|tid np ms]; cbn [map it_of a_load] in HL.
    + destruct bs as [|p bs]; [exact (IH items ltac:(lia) cp op pr bfm fr st cst n tail fuel l Hi' HT HS Hn HL Hf)|].
      destruct fuel as [|fuel]; [lia|].
      assert (EC : pfile (PPad (p :: bs) :: items) = p :: bs ++ pfile items) by reflexivity.
      assert (EC2 : pfile (PPad (p :: bs) :: items) ++ tail = p :: bs ++ pfile items ++ tail) by (rewrite EC; cbn [app]; now rewrite <- app_assoc).
      pose proof (pskip conv (map fst D) (PPad (p :: bs) :: items) tail (S (length (p :: bs ++ pfile items ++ tail))) Hi HT) as SK. rewrite EC2 in *.
      specialize (SK ltac:(lia)). cbn [pdrop] in SK.
      cbn [pitem_ok] in Hit. inversion Hit as [|? ? [P1 P2] Hbs]; subst.
      cbn [m_load_stages md_file f_eof md_good negb orb]. unfold m_load_entry. cbn [md_file md_open md_printed md_bf md_good md_cp md_free md_st].
      unfold peekEntryType at 1. cbn [f_rest app]. rewrite (pad_type p P1 P2).
      change (ET_INVALID =? ET_BUFFER_EXTENT) with false. change (ET_INVALID =? ET_CHECKPOINT) with false.
      change (ET_INVALID =? ET_LOG_MSGS_OR_DIC) with false. cbv iota. cbn [f_rest]. rewrite SK.
      destruct (pdrop_facts conv (map fst D) items Hi') as (D1 & D2 & D3 & D4). rewrite <- a_load_it in HL.
      cbn [length] in Hf. rewrite app_length in Hf.
      assert (D3' : (length (pfile (pdrop items) ++ tail) <= length (pfile items ++ tail))%nat) by (rewrite !app_length; lia).
      destruct (pfile (pdrop items) ++ tail) as [|x xs] eqn:EP.
      * assert (PE : pdrop items = []).
        { apply app_eq_nil in EP. destruct EP as [EP _]. destruct (pdrop items) as [|[b9|tid np ms] r] eqn:E; [reflexivity| |].
          - exfalso. clear - E. induction items as [|[?|? ? ?] items IHi]; cbn [pdrop] in E; [discriminate E|auto|discriminate E].
          - unfold pfile in EP. cbn [map concat pitem_bytes] in EP. unfold extent_bytes in EP. discriminate EP. }
        rewrite PE in HL. cbn [map a_load] in HL. injection HL as <-. cbn [l_items l_free l_stages l_n l_must l_done l_cp l_lines].
        cbn [md_file f_eof orb md_good negb andb].
        exists true, (File [] true), fr, cst, []. unfold flush_n. rewrite (forall2_empty _ _ _ _ _ (forall2_nth _ _ _ n HS)).
        splits; try reflexivity; auto; try discriminate. destruct (is_empty (nth n cst [])); reflexivity.
      * cbn [md_file f_eof orb md_good negb andb]. rewrite NN. rewrite <- EP.
        destruct (IH (pdrop items) ltac:(lia) cp op pr bfm fr st cst n tail fuel l D1 HT HS Hn HL) as (g & f1 & fr1 & cst1 & items' & E & R).
        { rewrite EP in *. lia. }
        rewrite E. exists g, f1, fr1, cst1, items'. exact (conj eq_refl R).
    + destruct fuel as [|fuel]; [lia|]. destruct Hit as (T1 & T2 & T3). cbn [pitem_bytes] in T2.
      assert (EC : pfile (PExtent tid np ms :: items) = extent_bytes tid np (map pm_w ms) ++ pfile items) by reflexivity.
      rewrite EC in *. rewrite <- app_assoc in *. rewrite app_length in Hf.
      destruct (extent_head tid np (map pm_w ms) T1) as (b0 & r0 & E0 & T0).
      assert (L0 : (0 < length (extent_bytes tid np (map pm_w ms)))%nat) by (rewrite E0; cbn [length]; lia).
      cbn [m_load_stages md_file f_eof md_good negb orb]. unfold m_load_entry. cbn [md_file md_open md_printed md_bf md_good md_cp md_free md_st].
      assert (PK : peekEntryType (File (extent_bytes tid np (map pm_w ms) ++ pfile items ++ tail) false) =
        (ET_BUFFER_EXTENT, File (extent_bytes tid np (map pm_w ms) ++ pfile items ++ tail) false)).
      { rewrite E0. unfold peekEntryType. cbn [f_rest app]. now rewrite T0. }
      rewrite PK. change (ET_BUFFER_EXTENT =? ET_BUFFER_EXTENT) with true. cbv iota.
      destruct (allocateBufferFragment fr) as [b free] eqn:EA.
      assert (EB : bf_ts b = hd 0 (map bf_ts fr) /\ map bf_ts free = tl (map bf_ts fr)).
      { destruct fr; cbn [allocateBufferFragment] in EA; injection EA as <- <-; split; reflexivity. }
      destruct EB as [EB1 EB2].
      destruct (readBufferExtent_spec tid np (map pm_w ms) (pfile items ++ tail) b T1 (pmsgs_wm _ _ _ T3) T2) as (b' & ER & A).
      rewrite ER. cbn [md_file f_eof orb md_good negb andb].
      assert (SB : pstands conv (map fst D) (AFrag tid (map fm ms) (hd 0 (map bf_ts fr))) b').
      { exists ms. unfold akey. cbn [a_tid a_ms a_stale]. splits; auto. destruct ms as [|m ms].
        - cbn [map]. rewrite (readBufferExtent_stale _ _ _ _ _ _ ER); auto. apply A.
        - destruct A as (_ & _ & _ & A3 & _). exact A3. }
      assert (HS' : Forall2 (Forall2 (pstands conv (map fst D))) (push_stage n (AFrag tid (map fm ms) (hd 0 (map bf_ts fr))) st) (push_stage n b' cst)).
      { unfold push_stage. apply forall2_set; auto. apply Forall2_app; [now apply forall2_nth|auto]. }
      cbv zeta in HL. rewrite orb_false_r. unfold stagesToBuffer. set (n' := if np then S n else n) in *. destruct (n' =? 3)%nat eqn:E3.
      * injection HL as <-. cbn [l_items l_free l_stages l_n l_must l_done l_cp l_lines].
        eexists true, _, _, _, items. splits; try reflexivity; auto; discriminate.
      * assert (Hn' : (n' < 3)%nat) by (apply Nat.eqb_neq in E3; subst n'; destruct np; lia).
        rewrite <- EB2 in HL.
        destruct (IH items ltac:(lia) cp op pr bfm free _ _ n' tail fuel l Hi' HT HS' Hn' HL ltac:(lia)) as (g & f1 & fr1 & cst1 & items' & E & R).
        rewrite E. exists g, f1, fr1, cst1, items'. exact (conj eq_refl R).
Qed.

Lemma m_fuel_ok : forall conv mcs st cst, Forall2 (Forall2 (pstands conv mcs)) st cst -> (S (weight amu st) <= deplete_fuel cst)%nat.
Proof.
  intros conv mcs st cst H. unfold weight, deplete_fuel.
  assert (C : Forall2 (pstands conv mcs) (concat st) (concat cst)).
  { induction H; cbn [concat]; [constructor|]. now apply Forall2_app. }
  enough (fold_right Nat.add 0 (map (fun b => S (amu b)) (concat st)) <=
    fold_right Nat.add 0 (map (fun b => S (S (Z.to_nat (bf_end b - bf_pos b)))) (concat cst)))%nat by lia.
  induction C as [|f b l l' Hfb HF IHF]; cbn [map fold_right]; [lia|].
  destruct Hfb as (ms & EM & A & Hok & _). pose proof (at_msgs_length _ _ _ A (pmsgs_wm _ _ _ Hok)) as L. rewrite map_length in L.
  assert (amu f = length ms) by (unfold amu; rewrite EM; apply map_length). lia.
Qed.

Lemma m_freed_ts : forall conv mcs fr cfr, Forall2 (pstands conv mcs) fr cfr -> map bf_ts (map bf_reset cfr) = map akey fr.
Proof. intros conv mcs fr cfr H. induction H as [|f b l l' (ms & _ & _ & _ & H1) HF IHF]; cbn [map]; [reflexivity|]. cbn [bf_reset bf_ts]. congruence. Qed.

Lemma m_run_sim : forall lim conv pick stm D, heap_front pick -> uses lim stm D -> forall fuel cfuel k items cp op pr bfm fr st cst n tail ls,
  Forall (pitem_ok conv (map fst D)) items -> ptorn tail -> Forall2 (Forall2 (pstands conv (map fst D))) st cst -> flushed st n -> (n <= 2)%nat ->
  a_run pick fuel k (map it_of items) (map bf_ts fr) st n cp = Some ls -> (fuel + 1 < cfuel)%nat ->
  exists d' evs,
   m_ordered_loop lim conv pick cfuel k (MDecoder op (File (pfile items ++ tail) false) pr bfm true cp fr stm) cst n = Some (d', evs) /\
   map line_of evs = ls /\ md_printed d' = pr + zlen (messages ls).
Proof.
  intros lim conv pick stm D Hp HU. induction fuel as [|fuel IH]; intros cfuel k items cp op pr bfm fr st cst n tail ls Hi HT HS HF Hn HR Hfu; [discriminate HR|].
  destruct cfuel as [|cfuel]; [lia|]. cbn [a_run m_ordered_loop md_file f_eof md_good negb orb] in *.
  destruct (a_load (map it_of items) (map bf_ts fr) st n cp) as [l|] eqn:EL; [|discriminate HR].
  assert (Hn3 : (n < 3)%nat) by lia. cbn [f_rest].
  destruct (m_load_sim lim conv stm D HU (length items) items (le_n _) cp op pr bfm fr st cst n tail (S (S (length (pfile items ++ tail)))) l Hi HT HS Hn3 EL ltac:(lia))
    as (g & f1 & fr1 & cst1 & items' & E1 & L1 & C1 & S1 & ND1 & DN1).
  rewrite E1. cbn [md_cp md_st md_open md_file md_printed md_bf md_good md_free].
  assert (FL : flushed (l_stages l) (l_n l)).
  { destruct HF as (F1 & F2 & F3). eapply a_load_three; eauto. intros i Hi'. apply F3. lia. }
  destruct (deplete_shape (l_cp l) pick k (l_must l) (l_stages l) (l_n l) Hp FL) as (k' & st2 & n2 & fr2 & ls2 & ED & FL2 & N2 & M2).
  rewrite ED in HR.
  destruct (deplete_sim akey bf_ts (anext (l_cp l)) (m_next_message lim conv cp stm) (pstands conv (map fst D)) line_of pick) with
    (fuel := S (weight amu (l_stages l))) (fuel' := deplete_fuel cst1) (k := k) (must := l_must l) (stA := l_stages l) (stB := cst1) (n := l_n l) (frA := @nil afrag) (frB := @nil bfrag)
    (k' := k') (st' := st2) (n' := n2) (fr' := fr2) (evs := ls2)
    as (cst2 & cfr2 & evs2 & ED2 & S2 & F2 & L2); auto.
  { intros a b (_ & _ & _ & _ & HK). auto. }
  { intros a b a' more evs HR1 HN. rewrite C1 in HN. exact (m_next_sim lim conv stm D cp a b a' more evs HU HR1 HN). }
  { eapply m_fuel_ok; eauto. }
  rewrite ED2. cbv zeta.
  assert (MI : msgs_in evs2 = zlen (messages ls2)) by (now apply no_msgs).
  rewrite L1 in HR. cbn [app] in HR.
  destruct (l_done l) eqn:EDn.
  - injection HR as <-. destruct (DN1 eq_refl) as [EM EOF].
    destruct cfuel as [|cfuel]; [lia|]. cbn [m_ordered_loop md_file]. rewrite EOF. cbn [orb].
    eexists _, _. split; [reflexivity|]. cbn [md_printed md_good app]. rewrite app_nil_r. splits; auto. lia.
  - destruct (ND1 eq_refl) as (-> & -> & NFr & NI & NOk). rewrite NI, C1 in HR.
    destruct (a_run pick fuel k' (map it_of items') (map akey fr2 ++ l_free l) st2 n2 cp) as [ls3|] eqn:ER; [|discriminate HR]. injection HR as <-.
    rewrite <- NFr, <- (m_freed_ts _ _ _ _ F2), <- map_app in ER.
    destruct (IH cfuel k' items' cp op (pr + msgs_in evs2) bfm (map bf_reset cfr2 ++ fr1) st2 cst2 n2 tail ls3 NOk HT S2 FL2 N2 ER ltac:(lia))
      as (d' & evs3 & E3 & L3 & P3).
    rewrite E3. eexists _, _. split; [reflexivity|]. cbn [app]. rewrite !map_app, !messages_app, !zlen_app. splits; auto; [congruence|].
    rewrite P3, MI. lia.
Qed.

(** Ordered decompression of a decoder that has just opened such a file. *)
Lemma pre_ordered : forall lim conv pick stm D cp items tail bfm, heap_front pick -> uses lim stm D ->
  Forall (pitem_ok conv (map fst D)) items -> ptorn tail ->
  exists d' evs, m_decompressTo lim conv pick (MDecoder true (File (pfile items ++ tail) false) 0 bfm true cp [] stm) =
      Some (d', evs, zlen (messages (map line_of evs))) /\
    Permutation (map line_of evs) (plines cp items) /\
    (extents_sorted (map it_of items) -> displaced 2 (passes (map it_of items)) -> extents_nonempty (map it_of items) ->
     chronological (map line_of evs)).
Proof.
  intros lim conv pick stm D cp items tail bfm Hp HU Hi HT.
  destruct (run_last pick Hp (nonpads (map it_of items) + 1) 0 (map it_of items) [] [[]; []; []] 0 cp (items_one items) flushed_start ltac:(lia) (le_n _)) as (P & ER & PP & PC).
  pose proof (items_nonpads conv (map fst D) items Hi) as NL.
  destruct (m_run_sim lim conv pick stm D Hp HU (nonpads (map it_of items) + 1) (2 * length (pfile items ++ tail) + 4) 0 items cp true 0 bfm []
    [[]; []; []] [[]; []; []] 0 tail P Hi HT) as (d2 & evs & E1 & E2 & E3); auto.
  - exact flushed_start.
  - rewrite app_length. lia.
  - unfold m_decompressTo. cbn [md_open negb md_file f_rest]. rewrite E1. exists d2, evs. rewrite E2, E3. splits; auto.
    + cbn [concat content flat_map map app] in PP. rewrite items_lines in PP. exact PP.
    + intros H1 H2 H3. apply (PC []). apply start_in_time; auto. now apply passes_extents.
Qed.

(** ** Iteration *)
Lemma m_extent_spec : forall lim conv stm D, uses lim stm D -> forall n items, (length items <= n)%nat -> forall cp op pr bfm fr tail fuel,
  Forall (pitem_ok conv (map fst D)) items -> ptorn tail -> bf_more bfm = false -> (length (pfile items ++ tail) + 1 < fuel)%nat ->
  exists g f' b' over, m_next_extent lim fuel (MDecoder op (File (pfile items ++ tail) false) pr bfm true cp fr stm) =
      Some (MDecoder op f' pr b' g cp fr stm, [], over) /\
    ((exists items' tid m ms, g = true /\ over = false /\ Forall (pitem_ok conv (map fst D)) items' /\ at_msgs b' tid (map pm_w (m :: ms)) /\
        Forall (pmsg_ok conv (map fst D)) (m :: ms) /\ f' = File (pfile items' ++ tail) false /\
        plines cp items = map (pshow cp tid) (m :: ms) ++ plines cp items') \/
     (bf_more b' = false /\ f_eof f' = true /\ plines cp items = [])).
Proof.
  intros lim conv stm D HU. induction n as [|n IH]; intros items Hn cp op pr bfm fr tail fuel Hi HT Hb Hf.
  - destruct items; [|cbn [length] in Hn; lia]. cbn [pfile map concat plines app] in *.
    destruct tail as [|b0 r0].
    2:{ destruct (extent_torn (b0 :: r0) bfm HT ltac:(discriminate)) as (b' & RT & MB).
        destruct (ptorn_head _ HT) as [E|(b1 & r1 & E & T)]; [discriminate E|]. injection E as <- <-.
        destruct fuel as [|fuel]; [lia|]. cbn [m_next_extent md_file f_eof md_good negb orb md_printed md_cp md_st md_open md_bf md_free].
        rewrite Hb. cbn [orb]. unfold peekEntryType. cbn [f_rest]. rewrite T. change (ET_BUFFER_EXTENT =? ET_BUFFER_EXTENT) with true. cbv iota. rewrite RT. cbv iota.
        eexists _, _, _, _. split; [reflexivity|]. right. splits; auto. }
    destruct fuel as [|[|fuel]]; try (cbn [length] in Hf; lia). cbn [m_next_extent md_file f_eof md_good negb orb md_printed md_cp md_st md_open md_bf md_free].
    rewrite Hb. cbn [orb peekEntryType f_rest]. change (ET_INVALID =? ET_BUFFER_EXTENT) with false. change (ET_INVALID =? ET_CHECKPOINT) with false.
    change (ET_INVALID =? ET_LOG_MSGS_OR_DIC) with false. cbn [skip_padding f_eof m_next_extent md_file orb md_bf]. rewrite ?Hb; cbn [orb].
    eexists _, _, _, _. split; [reflexivity|]. right. splits; auto.
  - destruct items as [|it items]; [apply (IH []); auto; cbn [length]; lia|].
    cbn [length] in Hn. inversion Hi as [|? ? Hit Hi']; subst.
    destruct it as [bs|tid np ms]; cbn [plines].
    + destruct bs as [|p bs]; [apply (IH items); auto; lia|].
      destruct fuel as [|fuel]; [lia|].
      assert (EC : pfile (PPad (p :: bs) :: items) = p :: bs ++ pfile items) by reflexivity.
      assert (EC2 : pfile (PPad (p :: bs) :: items) ++ tail = p :: bs ++ pfile items ++ tail) by (rewrite EC; cbn [app]; now rewrite <- app_assoc).
      pose proof (pskip conv (map fst D) (PPad (p :: bs) :: items) tail (S (length (p :: bs ++ pfile items ++ tail))) Hi HT) as SK. rewrite EC2 in *.
      specialize (SK ltac:(lia)). cbn [pdrop] in SK.
      cbn [pitem_ok] in Hit. inversion Hit as [|? ? [P1 P2] Hbs]; subst.
      cbn [m_next_extent md_file f_eof md_good negb orb md_printed md_cp md_st md_open md_bf md_free]. rewrite Hb. cbn [orb].
      unfold peekEntryType at 1. cbn [f_rest]. rewrite (pad_type p P1 P2).
      change (ET_INVALID =? ET_BUFFER_EXTENT) with false. change (ET_INVALID =? ET_CHECKPOINT) with false.
      change (ET_INVALID =? ET_LOG_MSGS_OR_DIC) with false. cbv iota. cbn [f_rest]. rewrite SK.
      destruct (pdrop_facts conv (map fst D) items Hi') as (D1 & D2 & D3 & D4). rewrite <- D4.
      cbn [length] in Hf. rewrite app_length in Hf.
      assert (D3' : (length (pfile (pdrop items) ++ tail) <= length (pfile items ++ tail))%nat) by (rewrite !app_length; lia).
      destruct (pfile (pdrop items) ++ tail) as [|x xs] eqn:EP.
      * destruct fuel as [|fuel]; [lia|]. cbn [m_next_extent md_file f_eof md_bf]. rewrite Hb. cbn [orb].
        assert (PE : plines cp (pdrop items) = []).
        { apply app_eq_nil in EP. destruct EP as [EP _]. clear - EP. induction items as [|[bs|tid np ms] items IH]; cbn [pdrop] in *; auto.
          unfold pfile in EP. cbn [map concat pitem_bytes] in EP. unfold extent_bytes in EP. discriminate EP. }
        rewrite PE. eexists _, _, _, _. split; [reflexivity|]. right. splits; auto.
      * rewrite <- EP. apply IH; auto; [lia|]. rewrite EP in *. cbn [length] in *. lia.
    + destruct fuel as [|fuel]; [lia|]. destruct Hit as (T1 & T2 & T3). cbn [pitem_bytes] in T2.
      assert (EC : pfile (PExtent tid np ms :: items) = extent_bytes tid np (map pm_w ms) ++ pfile items) by reflexivity.
      rewrite EC in *. rewrite <- app_assoc in *. rewrite app_length in Hf.
      destruct (extent_head tid np (map pm_w ms) T1) as (b0 & r0 & E0 & T0).
      assert (L0 : (0 < length (extent_bytes tid np (map pm_w ms)))%nat) by (rewrite E0; cbn [length]; lia).
      destruct (readBufferExtent_spec tid np (map pm_w ms) (pfile items ++ tail) bfm T1 (pmsgs_wm _ _ _ T3) T2) as (b' & RE & A).
      cbn [m_next_extent md_file f_eof md_good negb orb md_printed md_cp md_st md_open md_bf md_free]. rewrite Hb. cbn [orb].
      assert (PK : peekEntryType (File (extent_bytes tid np (map pm_w ms) ++ pfile items ++ tail) false) =
        (ET_BUFFER_EXTENT, File (extent_bytes tid np (map pm_w ms) ++ pfile items ++ tail) false)).
      { rewrite E0. unfold peekEntryType. cbn [f_rest app]. now rewrite T0. }
      rewrite PK. change (ET_BUFFER_EXTENT =? ET_BUFFER_EXTENT) with true. cbv iota. rewrite RE. cbv iota.
      destruct ms as [|m ms].
      * cbn [map app]. apply IH; auto; [lia|apply A|lia].
      * destruct fuel as [|fuel]; [lia|]. cbn [m_next_extent md_bf]. destruct A as (A0 & A1 & A2). rewrite A1. cbn [orb].
        eexists _, _, _, _. split; [reflexivity|]. left. exists items, tid, m, ms. pose proof (conj A0 (conj A1 A2)) as AA. clear A0 A1 A2. splits; auto; try exact AA.
Qed.

Lemma pshow_message : forall cp tid m ls, length (messages (pshow cp tid m :: ls)) = S (length (messages ls)).
Proof. reflexivity. Qed.

Lemma m_iterate_S : forall lim conv n d, m_iterate lim conv (S n) d =
  match m_getNextLogStatement lim conv d with
  | None => None
  | Some (d', evs, false) => Some (d', evs, false)
  | Some (d', evs, true) =>
    match m_iterate lim conv n d' with
    | None => None
    | Some (d'', evs', r) => Some (d'', evs ++ evs', r)
    end
  end.
Proof. reflexivity. Qed.

Lemma m_iterate_spec : forall lim conv stm D, uses lim stm D -> forall n cp pr bfm fr items tail tid ms,
  length (messages (map (pshow cp tid) ms ++ plines cp items)) = n ->
  at_msgs bfm tid (map pm_w ms) -> Forall (pmsg_ok conv (map fst D)) ms -> Forall (pitem_ok conv (map fst D)) items -> ptorn tail ->
  exists d' evs, m_iterate lim conv (S n) (MDecoder true (File (pfile items ++ tail) false) pr bfm true cp fr stm) = Some (d', evs, false) /\
    map line_of evs = map (pshow cp tid) ms ++ plines cp items /\ md_printed d' = pr + Z.of_nat n.
Proof.
  intros lim conv stm D HU. induction n as [|n IH]; intros cp pr bfm fr items tail tid ms Hn A Hms Hi HT.
  - destruct ms as [|m ms]; [|cbn [map app] in Hn; rewrite pshow_message in Hn; discriminate Hn].
    assert (M : bf_more bfm = false) by apply A. cbn [map app] in *.
    cbn [m_iterate]. unfold m_getNextLogStatement. cbn [md_bf md_open md_file f_eof md_good negb orb f_rest]. rewrite M.
    destruct (m_extent_spec lim conv stm D HU (length items) items (le_n _) cp true pr bfm fr tail (S (S (length (pfile items ++ tail)))) Hi HT M ltac:(lia))
      as (g & f' & b' & over & E & [(i' & tid' & m & ms & _ & _ & _ & _ & _ & _ & G)|(F1 & F2 & F3)]).
    + rewrite G in Hn. cbn [map app] in Hn. rewrite pshow_message in Hn. discriminate Hn.
    + rewrite E. destruct over; [eexists _, _; split; [reflexivity|]; cbn [app map md_printed]; rewrite F3; split; [reflexivity|lia]|].
      unfold m_next_from, m_decompressNext. cbn [md_bf]. rewrite F1. rewrite orb_true_r.
      eexists _, _. split; [reflexivity|]. cbn [app map md_printed]. rewrite F3. split; [reflexivity|lia].
  - destruct ms as [|m ms].
    + assert (M : bf_more bfm = false) by apply A. cbn [map app] in *.
      rewrite m_iterate_S. unfold m_getNextLogStatement. cbn [md_bf md_open md_file f_eof md_good negb orb f_rest]. rewrite M.
      destruct (m_extent_spec lim conv stm D HU (length items) items (le_n _) cp true pr bfm fr tail (S (S (length (pfile items ++ tail)))) Hi HT M ltac:(lia))
        as (g & f' & b' & over & E & [(i' & tid' & m & ms & -> & -> & G1 & G2 & G3 & -> & G)|(F1 & F2 & F3)]); [|rewrite F3 in Hn; discriminate Hn].
      rewrite E. unfold m_next_from. cbn [md_bf md_st md_open md_file md_printed md_good md_cp md_free].
      destruct (m_next_spec lim conv stm D b' tid' m ms HU G2 G3) as (b2 & dm & D1 & D2 & D3 & _). rewrite D1.
      inversion G3 as [|? ? Gm Gms]; subst. rewrite G in Hn. cbn [map app] in Hn. rewrite pshow_message in Hn.
      destruct (IH cp (pr + 1) b2 fr i' tail tid' ms ltac:(lia) D2 Gms G1 HT) as (d' & evs' & I1 & I2 & I3).
      cbv beta iota zeta. rewrite I1. eexists _, _. split; [reflexivity|]. cbn [app map]. rewrite D3, I2, G. split; [reflexivity|lia].
    + assert (M : bf_more bfm = true) by apply A.
      destruct (m_next_spec lim conv stm D bfm tid m ms HU A Hms) as (b' & dm & D1 & D2 & D3 & _).
      inversion Hms as [|? ? Gm Gms]; subst. cbn [map app] in Hn. rewrite pshow_message in Hn.
      destruct (IH cp (pr + 1) b' fr items tail tid ms ltac:(lia) D2 Gms Hi HT) as (d' & evs' & I1 & I2 & I3).
      rewrite m_iterate_S. unfold m_getNextLogStatement. cbn [md_bf]. rewrite M. unfold m_next_from. cbn [md_bf md_st]. rewrite D1.
      cbn [md_open md_file md_printed md_good md_cp md_free]. rewrite I1.
      eexists _, _. split; [reflexivity|]. cbn [map app]. rewrite D3, I2. split; [reflexivity|lia].
Qed.

(** Opening the file, and both ways of reading it. *)
Lemma pre_read : forall lim conv pick m0 junk cp D items tail, heap_front pick -> execution_ok junk cp D -> zlen (metas_bytes D) <= lim ->
  Forall (pitem_ok conv (map fst D)) items -> ptorn tail ->
  exists d, md_open_file lim (new_mdecoder m0) (execution_bytes junk cp D ++ pfile items ++ tail) = Some (d, true) /\
    (exists d' evs, m_iterate lim conv (S (length (messages (plines cp items)))) d = Some (d', evs, false) /\ map line_of evs = plines cp items /\
      md_printed d' = zlen (messages (plines cp items))) /\
    (exists d' evs, m_decompressTo lim conv pick d = Some (d', evs, zlen (messages (map line_of evs))) /\
      Permutation (map line_of evs) (plines cp items) /\
      (extents_sorted (map it_of items) -> displaced 2 (passes (map it_of items)) -> extents_nonempty (map it_of items) ->
       chronological (map line_of evs))).
Proof.
  intros lim conv pick m0 junk cp D items tail Hp HX HL Hi HT.
  assert (H0 : holds lim (Metas m0 0 [] []) []) by (unfold holds, uses; cbn; auto).
  destruct (C41_partial lim junk (Checkpoint 0 0 (repeat 0 8)) cp [] D (Metas m0 0 [] []) (pfile items ++ tail) H0 HX) as (st & D' & R & DD & (US & _)).
  { change (zlen (metas_bytes [])) with 0. lia. }
  { now left. }
  rewrite <- DD in Hi.
  unfold md_open_file, new_mdecoder. cbn [md_cp md_st md_bf md_free]. rewrite R. eexists. split; [reflexivity|]. split.
  - destruct (m_iterate_spec lim conv st D' US _ cp 0 new_bfrag [] items tail (bf_tid new_bfrag) [] eq_refl) as (d' & evs & E1 & E2 & E3); auto.
    { split; reflexivity. }
    exists d', evs. split; [exact E1|]. split; [exact E2|]. rewrite E3. cbn [map app]. unfold zlen. lia.
  - destruct (pre_ordered lim conv pick st D' cp items tail new_bfrag Hp US Hi HT) as (d' & evs & E1 & E2 & E3). exists d', evs. auto.
Qed.
