(** Decompressing the logs of several executions of a program the preprocessor
    handled, one behind the other in a file. *)
From Verif Require Import Base BaseProofs Packer PackerProofs LogHeader LogHeaderProofs Chars Fmt FmtProofs MicroCode Args ArgsProofs Printf Decode DecodeProofs
  Encoder Wire EncoderProofs Decoder FileSpec DecoderProofs Ordered OrderedProofs OrderSpec OrderTheory Prop_Ordered
  MetaDict MicroMem MemDecoder Prop_MemDecoder Prop_MetaDict PreFile PreOrder.
Ltac Zify.zify_post_hook ::= Z.div_mod_to_equations.

Record prun := PRun { pr_junk : Z; pr_cp : checkpoint; pr_dict : list meta; pr_items : list pitem }.

Definition run_bytes (r : prun) : list Z := execution_bytes (pr_junk r) (pr_cp r) (pr_dict r) ++ pfile (pr_items r).
Definition runs_bytes (rs : list prun) : list Z := concat (map run_bytes rs).
Definition run_ok (conv : rconv -> list Z) (mcs : list microcode) (r : prun) : Prop :=
  execution_ok (pr_junk r) (pr_cp r) (pr_dict r) /\ map fst (pr_dict r) = mcs /\ Forall (pitem_ok conv mcs) (pr_items r).
Definition runs_lines (rs : list prun) : list oline := concat (map (fun r => LNewExecution :: plines (pr_cp r) (pr_items r)) rs).

(** What follows starts with a checkpoint. *)
Definition headed (rest : list Z) : Prop := exists b r, rest = b :: r /\ entryType b = ET_CHECKPOINT.

Lemma execution_headed : forall junk cp D rest, execution_ok junk cp D -> headed (execution_bytes junk cp D ++ rest).
Proof.
  intros junk cp D rest (J & _). unfold headed, execution_bytes. cbn [app]. eexists _, _. split; [reflexivity|].
  unfold entryType, ET_CHECKPOINT. bf.
Qed.

Lemma pskip_to : forall conv mcs items rest fuel, Forall (pitem_ok conv mcs) items -> headed rest -> (length (pfile items ++ rest) < fuel)%nat ->
  skip_padding fuel (File (pfile items ++ rest) false) = File (pfile (pdrop items) ++ rest) false.
Proof.
  intros conv mcs items rest. induction items as [|[bs|tid np ms] items IH]; intros fuel H HT Hf; (destruct fuel as [|fuel]; [lia|]).
  - cbn [pdrop pfile map concat app]. destruct HT as (b & r & -> & T).
    cbn [skip_padding f_eof]. unfold peekEntryType. cbn [f_rest]. rewrite T. reflexivity.
  - inversion H as [|? ? Hb Hi]; subst. cbn [pitem_ok] in Hb. cbn [pdrop].
    unfold pfile in *. cbn [map concat pitem_bytes] in *. rewrite <- app_assoc in *. rewrite app_length in Hf.
    destruct (skip_bytes bs (S fuel) (concat (map pitem_bytes items) ++ rest) Hb ltac:(lia)) as (fuel' & F1 & F2).
    rewrite F2. apply IH; auto. lia.
  - inversion H as [|? ? Hx Hi]; subst. cbn [pitem_ok] in Hx. destruct Hx as (Ht & _). cbn [pdrop]. unfold pfile. cbn [map concat pitem_bytes].
    destruct (extent_head tid np (map pm_w ms) Ht) as (b & r & E & T). rewrite E. cbn [app].
    cbn [skip_padding f_eof]. unfold peekEntryType. cbn [f_rest]. rewrite T. reflexivity.
Qed.

(** ** Unordered decompression *)

(** The extents of an execution, up to the checkpoint behind them. *)
Lemma pre_run : forall lim conv st D, uses lim st D -> forall n items, (length items <= n)%nat -> forall cp op pr bfm fr b rest fuel,
  Forall (pitem_ok conv (map fst D)) items -> headed rest -> (length (pfile items ++ rest) + 1 < fuel)%nat ->
  exists fuel' b' evs, (length rest + 1 < fuel')%nat /\ map line_of evs = plines cp items /\
    m_unordered_loop lim conv fuel (MDecoder op (File (pfile items ++ rest) false) pr bfm true cp fr st) b =
    match m_unordered_loop lim conv fuel' (MDecoder op (File rest false) (pr + zlen (messages (plines cp items))) bfm true cp fr st) b' with
    | None => None
    | Some (d', b3, evs') => Some (d', b3, evs ++ evs')
    end.
Proof.
  intros lim conv st D HU. induction n as [|n IH]; intros items Hn cp op pr bfm fr b rest fuel Hi HT Hf.
  - destruct items; [|cbn [length] in Hn; lia]. cbn [pfile map concat plines app] in *.
    change (zlen (messages [])) with 0. rewrite Z.add_0_r.
    exists fuel, b, []. splits; auto.
    destruct (m_unordered_loop lim conv fuel (MDecoder op (File rest false) pr bfm true cp fr st) b) as [[[d' b3] evs']|]; reflexivity.
  - destruct items as [|it items]; [apply (IH []); auto; cbn [length]; lia|].
    cbn [length] in Hn. inversion Hi as [|? ? Hit Hi']; subst.
    destruct it as [bs|tid np ms]; cbn [plines].
    + destruct bs as [|p bs]; [apply (IH items); auto; lia|].
      destruct fuel as [|fuel]; [lia|].
      assert (EC : pfile (PPad (p :: bs) :: items) = p :: bs ++ pfile items) by reflexivity.
      assert (EC2 : pfile (PPad (p :: bs) :: items) ++ rest = p :: bs ++ pfile items ++ rest) by (rewrite EC; cbn [app]; now rewrite <- app_assoc).
      pose proof (pskip_to conv (map fst D) (PPad (p :: bs) :: items) rest (S (length (p :: bs ++ pfile items ++ rest))) Hi HT) as SK. rewrite EC2 in *.
      specialize (SK ltac:(lia)). cbn [pdrop] in SK.
      cbn [pitem_ok] in Hit. inversion Hit as [|? ? [P1 P2] Hbs]; subst.
      cbn [m_unordered_loop md_file f_eof md_good negb orb md_printed md_cp md_st md_open md_bf md_free].
      unfold peekEntryType at 1. cbn [f_rest]. rewrite (pad_type p P1 P2).
      change (ET_INVALID =? ET_BUFFER_EXTENT) with false. change (ET_INVALID =? ET_CHECKPOINT) with false.
      change (ET_INVALID =? ET_LOG_MSGS_OR_DIC) with false. cbv iota. cbn [f_rest]. rewrite SK.
      destruct (pdrop_facts conv (map fst D) items Hi') as (D1 & D2 & D3 & D4). rewrite <- D4.
      cbn [length] in Hf. rewrite app_length in Hf.
      assert (D3' : (length (pfile (pdrop items) ++ rest) <= length (pfile items ++ rest))%nat) by (rewrite !app_length; lia).
      apply IH; auto; lia.
    + destruct fuel as [|fuel]; [lia|]. destruct Hit as (T1 & T2 & T3). cbn [pitem_bytes] in T2.
      assert (EC : pfile (PExtent tid np ms :: items) = extent_bytes tid np (map pm_w ms) ++ pfile items) by reflexivity.
      rewrite EC in *. rewrite <- app_assoc in *. rewrite app_length in Hf.
      destruct (extent_head tid np (map pm_w ms) T1) as (b0 & r0 & E0 & T0).
      destruct (readBufferExtent_spec tid np (map pm_w ms) (pfile items ++ rest) b T1 (pmsgs_wm _ _ _ T3) T2) as (b' & RE & A).
      assert (PK : peekEntryType (File (extent_bytes tid np (map pm_w ms) ++ pfile items ++ rest) false) =
        (ET_BUFFER_EXTENT, File (extent_bytes tid np (map pm_w ms) ++ pfile items ++ rest) false)).
      { rewrite E0. unfold peekEntryType. cbn [f_rest app]. now rewrite T0. }
      destruct (m_drain_spec lim conv st D cp tid HU ms b' (S (S (Z.to_nat (bf_end b' - bf_pos b')))) A T3) as (b2 & evs & DR & E1 & E2 & E3).
      { intros _. lia. } { lia. }
      assert (L0 : (0 < length (extent_bytes tid np (map pm_w ms)))%nat) by (rewrite E0; cbn [length]; lia).
      destruct (IH items ltac:(lia) cp op (pr + msgs_in evs) bfm fr b2 rest fuel Hi' HT ltac:(lia)) as (fuel' & b3 & evs' & F1 & F2 & EL).
      exists fuel', b3, (evs ++ evs'). split; [exact F1|]. split; [now rewrite map_app, E1, F2|].
      cbn [m_unordered_loop md_file f_eof md_good negb orb md_printed md_cp md_st md_open md_bf md_free].
      rewrite PK. change (ET_BUFFER_EXTENT =? ET_BUFFER_EXTENT) with true. cbv iota. rewrite RE. cbv iota.
      rewrite DR, EL, messages_app, zlen_app, messages_pshow, E3, Z.add_assoc.
      match goal with |- context [m_unordered_loop lim conv fuel' ?x b3] => destruct (m_unordered_loop lim conv fuel' x b3) as [[[d' b4] evs'']|] end; [|reflexivity].
      now rewrite app_assoc.
Qed.

Lemma pre_runs : forall lim conv rs D st items, holds lim st D -> Forall (run_ok conv (map fst D)) rs ->
  (rs <> [] -> 2 * zlen (metas_bytes D) <= lim) -> Forall (pitem_ok conv (map fst D)) items ->
  forall cp op pr bfm fr b tail fuel, ptorn tail -> (length (pfile items ++ runs_bytes rs ++ tail) + 1 < fuel)%nat ->
  exists d' b' evs,
    m_unordered_loop lim conv fuel (MDecoder op (File (pfile items ++ runs_bytes rs ++ tail) false) pr bfm true cp fr st) b = Some (d', b', evs) /\
    map line_of evs = plines cp items ++ runs_lines rs /\
    md_printed d' = pr + zlen (messages (plines cp items ++ runs_lines rs)) /\ md_good d' = true.
Proof.
  intros lim conv. induction rs as [|r rs IH]; intros D st items HH HR HL Hi cp op pr bfm fr b tail fuel HT Hf.
  - destruct HH as (HU & _). unfold runs_bytes, runs_lines in *. cbn [map concat app] in *. rewrite app_nil_r in *.
    destruct (pre_loop lim conv st D HU (length items) items (Nat.le_refl _) cp op pr bfm fr b tail fuel Hi HT Hf)
      as (d' & b' & evs & EL & F1 & F2 & F3 & _). eauto 8.
  - inversion HR as [|? ? (X1 & X2 & X3) HR']; subst. specialize (HL ltac:(discriminate)).
    assert (EB : runs_bytes (r :: rs) ++ tail = execution_bytes (pr_junk r) (pr_cp r) (pr_dict r) ++ pfile (pr_items r) ++ runs_bytes rs ++ tail).
    { unfold runs_bytes. cbn [map concat]. unfold run_bytes at 1. now rewrite <- !app_assoc. }
    rewrite EB in *. set (next := pfile (pr_items r) ++ runs_bytes rs ++ tail) in *.
    pose proof (execution_headed (pr_junk r) (pr_cp r) (pr_dict r) next X1) as HD.
    destruct (pre_run lim conv st D (proj1 HH) (length items) items (Nat.le_refl _) cp op pr bfm fr b _ fuel Hi HD Hf) as (fuel' & b1 & evs1 & G1 & G2 & G3).
    rewrite G3. clear G3. destruct fuel' as [|fuel']; [lia|].
    destruct (C41_partial lim (pr_junk r) cp (pr_cp r) D (pr_dict r) st next HH X1 ltac:(rewrite <- (same_size D (pr_dict r) (eq_sym X2)); lia) (or_intror (eq_sym X2)))
      as (st' & D' & R & DD & H').
    assert (DF : map fst D' = map fst D) by congruence.
    assert (PK : peekEntryType (File (execution_bytes (pr_junk r) (pr_cp r) (pr_dict r) ++ next) false) =
      (ET_CHECKPOINT, File (execution_bytes (pr_junk r) (pr_cp r) (pr_dict r) ++ next) false)).
    { destruct HD as (x & xs & E & T). rewrite E. unfold peekEntryType. cbn [f_rest]. now rewrite T. }
    cbn [m_unordered_loop md_file f_eof md_good negb orb md_printed md_cp md_st md_open md_bf md_free]. rewrite PK.
    change (ET_CHECKPOINT =? ET_BUFFER_EXTENT) with false. change (ET_CHECKPOINT =? ET_CHECKPOINT) with true. cbv iota. rewrite R. cbv iota.
    assert (LX : (0 < length (execution_bytes (pr_junk r) (pr_cp r) (pr_dict r)))%nat) by (unfold execution_bytes; cbn [app length]; lia).
    rewrite app_length in G1. rewrite <- DF in HR', X3.
    destruct (IH D' st' (pr_items r) H' HR' ltac:(intros _; rewrite (same_size D' D DF); exact HL) X3 (pr_cp r) op
      (pr + zlen (messages (plines cp items))) bfm fr b1 tail fuel' HT ltac:(fold next; lia)) as (d' & b' & evs & K1 & K2 & K3 & K4).
    unfold next. rewrite K1. eexists _, _, _. split; [reflexivity|].
    assert (LS : plines cp items ++ runs_lines (r :: rs) = plines cp items ++ LNewExecution :: plines (pr_cp r) (pr_items r) ++ runs_lines rs) by reflexivity.
    rewrite LS. splits; auto.
    + rewrite map_app, G2. cbn [map]. now rewrite K2.
    + rewrite K3, (messages_app (plines cp items)), zlen_app. change (messages (LNewExecution :: ?x)) with (messages x). lia.
Qed.

(** ** Iteration *)
Lemma m_extent_run : forall lim conv stm D, uses lim stm D -> forall n items, (length items <= n)%nat -> forall cp op pr bfm fr rest fuel,
  Forall (pitem_ok conv (map fst D)) items -> headed rest -> bf_more bfm = false -> (length (pfile items ++ rest) + 1 < fuel)%nat ->
  (exists items' b' tid m ms, m_next_extent lim fuel (MDecoder op (File (pfile items ++ rest) false) pr bfm true cp fr stm) =
      Some (MDecoder op (File (pfile items' ++ rest) false) pr b' true cp fr stm, [], false) /\
      Forall (pitem_ok conv (map fst D)) items' /\ at_msgs b' tid (map pm_w (m :: ms)) /\
      Forall (pmsg_ok conv (map fst D)) (m :: ms) /\ plines cp items = map (pshow cp tid) (m :: ms) ++ plines cp items') \/
  (exists fuel' b', m_next_extent lim fuel (MDecoder op (File (pfile items ++ rest) false) pr bfm true cp fr stm) =
      m_next_extent lim fuel' (MDecoder op (File rest false) pr b' true cp fr stm) /\
      (length rest + 1 < fuel')%nat /\ bf_more b' = false /\ plines cp items = []).
Proof.
  intros lim conv stm D HU. induction n as [|n IH]; intros items Hn cp op pr bfm fr rest fuel Hi HT Hb Hf.
  - destruct items; [|cbn [length] in Hn; lia]. cbn [pfile map concat plines app] in *. right. exists fuel, bfm. auto.
  - destruct items as [|it items]; [apply (IH []); auto; cbn [length]; lia|].
    cbn [length] in Hn. inversion Hi as [|? ? Hit Hi']; subst.
    destruct it as [bs|tid np ms]; cbn [plines].
    + destruct bs as [|p bs]; [apply (IH items); auto; lia|].
      destruct fuel as [|fuel]; [lia|].
      assert (EC : pfile (PPad (p :: bs) :: items) = p :: bs ++ pfile items) by reflexivity.
      assert (EC2 : pfile (PPad (p :: bs) :: items) ++ rest = p :: bs ++ pfile items ++ rest) by (rewrite EC; cbn [app]; now rewrite <- app_assoc).
      pose proof (pskip_to conv (map fst D) (PPad (p :: bs) :: items) rest (S (length (p :: bs ++ pfile items ++ rest))) Hi HT) as SK. rewrite EC2 in *.
      specialize (SK ltac:(lia)). cbn [pdrop] in SK.
      cbn [pitem_ok] in Hit. inversion Hit as [|? ? [P1 P2] Hbs]; subst.
      assert (ST : m_next_extent lim (S fuel) (MDecoder op (File (p :: bs ++ pfile items ++ rest) false) pr bfm true cp fr stm) =
        m_next_extent lim fuel (MDecoder op (File (pfile (pdrop items) ++ rest) false) pr bfm true cp fr stm)).
      { cbn [m_next_extent md_file f_eof md_good negb orb md_printed md_cp md_st md_open md_bf md_free]. rewrite Hb. cbn [orb].
        unfold peekEntryType at 1. cbn [f_rest]. rewrite (pad_type p P1 P2).
        change (ET_INVALID =? ET_BUFFER_EXTENT) with false. change (ET_INVALID =? ET_CHECKPOINT) with false.
        change (ET_INVALID =? ET_LOG_MSGS_OR_DIC) with false. cbv iota. cbn [f_rest]. now rewrite SK. }
      rewrite ST.
      destruct (pdrop_facts conv (map fst D) items Hi') as (D1 & D2 & D3 & D4). rewrite <- D4.
      cbn [length] in Hf. rewrite app_length in Hf.
      assert (D3' : (length (pfile (pdrop items) ++ rest) <= length (pfile items ++ rest))%nat) by (rewrite !app_length; lia).
      apply IH; auto; lia.
    + destruct fuel as [|fuel]; [lia|]. destruct Hit as (T1 & T2 & T3). cbn [pitem_bytes] in T2.
      assert (EC : pfile (PExtent tid np ms :: items) = extent_bytes tid np (map pm_w ms) ++ pfile items) by reflexivity.
      rewrite EC in *. rewrite <- app_assoc in *. rewrite app_length in Hf.
      destruct (extent_head tid np (map pm_w ms) T1) as (b0 & r0 & E0 & T0).
      assert (L0 : (0 < length (extent_bytes tid np (map pm_w ms)))%nat) by (rewrite E0; cbn [length]; lia).
      destruct (readBufferExtent_spec tid np (map pm_w ms) (pfile items ++ rest) bfm T1 (pmsgs_wm _ _ _ T3) T2) as (b' & RE & A).
      assert (PK : peekEntryType (File (extent_bytes tid np (map pm_w ms) ++ pfile items ++ rest) false) =
        (ET_BUFFER_EXTENT, File (extent_bytes tid np (map pm_w ms) ++ pfile items ++ rest) false)).
      { rewrite E0. unfold peekEntryType. cbn [f_rest app]. now rewrite T0. }
      assert (ST : m_next_extent lim (S fuel) (MDecoder op (File (extent_bytes tid np (map pm_w ms) ++ pfile items ++ rest) false) pr bfm true cp fr stm) =
        m_next_extent lim fuel (MDecoder op (File (pfile items ++ rest) false) pr b' true cp fr stm)).
      { cbn [m_next_extent md_file f_eof md_good negb orb md_printed md_cp md_st md_open md_bf md_free]. rewrite Hb. cbn [orb].
        rewrite PK. change (ET_BUFFER_EXTENT =? ET_BUFFER_EXTENT) with true. cbv iota. now rewrite RE. }
      rewrite ST. destruct ms as [|m ms].
      * cbn [map app]. apply IH; auto; [lia|apply A|lia].
      * left. exists items, b', tid, m, ms. destruct fuel as [|fuel]; [lia|]. cbn [m_next_extent md_bf]. pose proof A as (_ & A1 & _). rewrite A1. cbn [orb].
        split; [reflexivity|]. split; [exact Hi'|]. split; [exact A|]. split; [exact T3|]. reflexivity.
Qed.

Lemma m_extent_runs : forall lim conv rs D stm items, holds lim stm D -> Forall (run_ok conv (map fst D)) rs ->
  (rs <> [] -> 2 * zlen (metas_bytes D) <= lim) -> Forall (pitem_ok conv (map fst D)) items ->
  forall cp op pr bfm fr tail fuel, ptorn tail -> bf_more bfm = false -> (length (pfile items ++ runs_bytes rs ++ tail) + 1 < fuel)%nat ->
  exists d' evs over, m_next_extent lim fuel (MDecoder op (File (pfile items ++ runs_bytes rs ++ tail) false) pr bfm true cp fr stm) = Some (d', evs, over) /\
    md_printed d' = pr /\ messages (map line_of evs) = [] /\
    ((exists D' stm' items' rs' b' cp' tid m ms, over = false /\ d' = MDecoder op (File (pfile items' ++ runs_bytes rs' ++ tail) false) pr b' true cp' fr stm' /\
        map fst D' = map fst D /\ holds lim stm' D' /\ Forall (run_ok conv (map fst D')) rs' /\ (rs' <> [] -> 2 * zlen (metas_bytes D') <= lim) /\
        Forall (pitem_ok conv (map fst D')) items' /\ at_msgs b' tid (map pm_w (m :: ms)) /\ Forall (pmsg_ok conv (map fst D')) (m :: ms) /\
        plines cp items ++ runs_lines rs = map line_of evs ++ map (pshow cp' tid) (m :: ms) ++ plines cp' items' ++ runs_lines rs') \/
     (bf_more (md_bf d') = false /\ plines cp items ++ runs_lines rs = map line_of evs)).
Proof.
  intros lim conv. induction rs as [|r rs IH]; intros D stm items HH HR HL Hi cp op pr bfm fr tail fuel HT Hb Hf.
  - unfold runs_bytes, runs_lines in *. cbn [map concat app] in *. rewrite app_nil_r in *.
    destruct (m_extent_spec lim conv stm D (proj1 HH) (length items) items (Nat.le_refl _) cp op pr bfm fr tail fuel Hi HT Hb Hf)
      as (g & f' & b' & over & E & [(items' & tid & m & ms & -> & -> & A1 & A2 & A3 & -> & A4)|(A1 & A2 & A3)]); rewrite E; eexists _, _, _;
      (split; [reflexivity|]); (split; [reflexivity|]); (split; [reflexivity|]).
    + left. exists D, stm, items', [], b', cp, tid, m, ms. cbn [map concat app]. rewrite app_nil_r. splits; auto; contradiction.
    + right. split; [exact A1|exact A3].
  - inversion HR as [|? ? (X1 & X2 & X3) HR']; subst. pose proof (HL ltac:(discriminate)) as HL'.
    assert (EB : runs_bytes (r :: rs) ++ tail = execution_bytes (pr_junk r) (pr_cp r) (pr_dict r) ++ pfile (pr_items r) ++ runs_bytes rs ++ tail).
    { unfold runs_bytes. cbn [map concat]. unfold run_bytes at 1. now rewrite <- !app_assoc. }
    rewrite EB in *. set (next := pfile (pr_items r) ++ runs_bytes rs ++ tail) in *.
    pose proof (execution_headed (pr_junk r) (pr_cp r) (pr_dict r) next X1) as HD.
    destruct (m_extent_run lim conv stm D (proj1 HH) (length items) items (Nat.le_refl _) cp op pr bfm fr _ fuel Hi HD Hb Hf)
      as [(items' & b' & tid & m & ms & E & A1 & A2 & A3 & A4)|(fuel' & b' & E & G1 & G2 & G3)]; rewrite E; clear E.
    + eexists _, _, _. split; [reflexivity|]. split; [reflexivity|]. split; [reflexivity|]. left.
      exists D, stm, items', (r :: rs), b', cp, tid, m, ms. rewrite EB. split; [reflexivity|]. split; [reflexivity|]. split; [reflexivity|].
      split; [exact HH|]. split; [exact HR|]. split; [exact HL|]. split; [exact A1|]. split; [exact A2|]. split; [exact A3|].
      rewrite A4. cbn [map app]. now rewrite <- app_assoc.
    + destruct fuel' as [|fuel']; [lia|].
      destruct (C41_partial lim (pr_junk r) cp (pr_cp r) D (pr_dict r) stm next HH X1 ltac:(rewrite <- (same_size D (pr_dict r) (eq_sym X2)); lia) (or_intror (eq_sym X2)))
        as (st' & D' & R & DD & H').
      assert (DF : map fst D' = map fst D) by congruence.
      assert (PK : peekEntryType (File (execution_bytes (pr_junk r) (pr_cp r) (pr_dict r) ++ next) false) =
        (ET_CHECKPOINT, File (execution_bytes (pr_junk r) (pr_cp r) (pr_dict r) ++ next) false)).
      { destruct HD as (x & xs & E & T). rewrite E. unfold peekEntryType. cbn [f_rest]. now rewrite T. }
      cbn [m_next_extent md_file f_eof md_good negb orb md_printed md_cp md_st md_open md_bf md_free]. rewrite G2. cbn [orb]. rewrite PK.
      change (ET_CHECKPOINT =? ET_BUFFER_EXTENT) with false. change (ET_CHECKPOINT =? ET_CHECKPOINT) with true. cbv iota. rewrite R. cbv iota.
      assert (LX : (0 < length (execution_bytes (pr_junk r) (pr_cp r) (pr_dict r)))%nat) by (unfold execution_bytes; cbn [app length]; lia).
      rewrite app_length in G1. rewrite <- DF in HR', X3.
      destruct (IH D' st' (pr_items r) H' HR' ltac:(intros _; rewrite (same_size D' D DF); exact HL') X3 (pr_cp r) op pr b' fr tail fuel' HT G2 ltac:(fold next; lia))
        as (d' & evs & over & K1 & K2 & K3 & K4).
      unfold next. rewrite K1. eexists _, _, _. split; [reflexivity|]. split; [exact K2|]. split; [exact K3|].
      assert (LS : plines cp items ++ runs_lines (r :: rs) = LNewExecution :: plines (pr_cp r) (pr_items r) ++ runs_lines rs) by (rewrite G3; reflexivity).
      rewrite LS. destruct K4 as [(D2 & s2 & i2 & rs2 & b2 & cp2 & tid & m & ms & Y1 & Y2 & Y3 & Y4 & Y5 & Y6 & Y7 & Y8 & Y9 & Y10)|(Y1 & Y2)].
      * left. exists D2, s2, i2, rs2, b2, cp2, tid, m, ms. split; [exact Y1|]. split; [exact Y2|]. split; [congruence|]. split; [exact Y4|]. split; [exact Y5|].
        split; [exact Y6|]. split; [exact Y7|]. split; [exact Y8|]. split; [exact Y9|]. rewrite Y10. reflexivity.
      * right. split; [exact Y1|]. rewrite Y2. reflexivity.
Qed.

Lemma m_iterate_runs : forall lim conv n rs D stm cp pr bfm fr items tail tid ms, holds lim stm D -> Forall (run_ok conv (map fst D)) rs ->
  (rs <> [] -> 2 * zlen (metas_bytes D) <= lim) ->
  length (messages (map (pshow cp tid) ms ++ plines cp items ++ runs_lines rs)) = n ->
  at_msgs bfm tid (map pm_w ms) -> Forall (pmsg_ok conv (map fst D)) ms -> Forall (pitem_ok conv (map fst D)) items -> ptorn tail ->
  exists d' evs, m_iterate lim conv (S n) (MDecoder true (File (pfile items ++ runs_bytes rs ++ tail) false) pr bfm true cp fr stm) = Some (d', evs, false) /\
    map line_of evs = map (pshow cp tid) ms ++ plines cp items ++ runs_lines rs /\ md_printed d' = pr + Z.of_nat n.
Proof.
  intros lim conv. induction n as [|n IH]; intros rs D stm cp pr bfm fr items tail tid ms HH HR HL Hn A Hms Hi HT.
  - destruct ms as [|m ms]; [|cbn [map app] in Hn; rewrite pshow_message in Hn; discriminate Hn].
    assert (M : bf_more bfm = false) by apply A. cbn [map app] in *.
    cbn [m_iterate]. unfold m_getNextLogStatement. cbn [md_bf md_open md_file f_eof md_good negb orb f_rest]. rewrite M.
    destruct (m_extent_runs lim conv rs D stm items HH HR HL Hi cp true pr bfm fr tail (S (S (length (pfile items ++ runs_bytes rs ++ tail)))) HT M ltac:(lia))
      as (d' & evs & over & E & P & ME & [(D' & s' & i' & rs' & b' & cp' & tid' & m & ms & _ & _ & _ & _ & _ & _ & _ & _ & _ & G)|(F1 & F2)]).
    + rewrite G, messages_app, ME in Hn. cbn [map app] in Hn. rewrite pshow_message in Hn. discriminate Hn.
    + rewrite E. destruct over; [eexists _, _; split; [reflexivity|]; split; [symmetry; exact F2|]; lia|].
      unfold m_next_from, m_decompressNext. rewrite F1. rewrite orb_true_r.
      eexists _, _. split; [reflexivity|]. rewrite app_nil_r. split; [symmetry; exact F2|]. cbn [md_printed]. lia.
  - destruct ms as [|m ms].
    + assert (M : bf_more bfm = false) by apply A. cbn [map app] in *.
      rewrite m_iterate_S. unfold m_getNextLogStatement. cbn [md_bf md_open md_file f_eof md_good negb orb f_rest]. rewrite M.
      destruct (m_extent_runs lim conv rs D stm items HH HR HL Hi cp true pr bfm fr tail (S (S (length (pfile items ++ runs_bytes rs ++ tail)))) HT M ltac:(lia))
        as (d' & evs & over & E & P & ME & [(D' & s' & i' & rs' & b' & cp' & tid' & m & ms & -> & -> & Y3 & Y4 & Y5 & Y6 & Y7 & Y8 & Y9 & G)|(F1 & F2)]);
        [|rewrite F2, ME in Hn; discriminate Hn].
      rewrite E. unfold m_next_from. cbn [md_bf md_st md_open md_file md_printed md_good md_cp md_free].
      destruct (m_next_spec lim conv s' D' b' tid' m ms (proj1 Y4) Y8 Y9) as (b2 & dm & D1 & D2 & D3 & _). rewrite D1.
      inversion Y9 as [|? ? Gm Gms]; subst. rewrite G, messages_app, ME in Hn. cbn [map app] in Hn. rewrite pshow_message in Hn.
      destruct (IH rs' D' s' cp' (pr + 1) b2 fr i' tail tid' ms Y4 Y5 Y6 ltac:(lia) D2 Gms Y7 HT) as (d' & evs' & I1 & I2 & I3).
      cbv beta iota zeta. rewrite I1. eexists _, _. split; [reflexivity|]. rewrite !map_app. cbn [app map]. rewrite D3, I2, G, <- app_assoc. cbn [map app]. split; [reflexivity|lia].
    + assert (M : bf_more bfm = true) by apply A.
      destruct (m_next_spec lim conv stm D bfm tid m ms (proj1 HH) A Hms) as (b' & dm & D1 & D2 & D3 & _).
      inversion Hms as [|? ? Gm Gms]; subst. cbn [map app] in Hn. rewrite pshow_message in Hn.
      destruct (IH rs D stm cp (pr + 1) b' fr items tail tid ms HH HR HL ltac:(lia) D2 Gms Hi HT) as (d' & evs' & I1 & I2 & I3).
      rewrite m_iterate_S. unfold m_getNextLogStatement. cbn [md_bf]. rewrite M. unfold m_next_from. cbn [md_bf md_st]. rewrite D1.
      cbn [md_open md_file md_printed md_good md_cp md_free]. rewrite I1.
      eexists _, _. split; [reflexivity|]. cbn [map app]. rewrite D3, I2. split; [reflexivity|lia].
Qed.

(** Opening the file, and both ways of reading it. *)
Lemma runs_read : forall lim conv m0 r rs tail, run_ok conv (map fst (pr_dict r)) r -> Forall (run_ok conv (map fst (pr_dict r))) rs ->
  (zlen (metas_bytes (pr_dict r)) <= lim) -> (rs <> [] -> 2 * zlen (metas_bytes (pr_dict r)) <= lim) -> ptorn tail ->
  let ls := plines (pr_cp r) (pr_items r) ++ runs_lines rs in
  exists d, md_open_file lim (new_mdecoder m0) (runs_bytes (r :: rs) ++ tail) = Some (d, true) /\
    (exists d' evs, m_decompressUnordered lim conv d = Some (d', evs, zlen (messages ls)) /\ map line_of evs = ls) /\
    (exists d' evs, m_iterate lim conv (S (length (messages ls))) d = Some (d', evs, false) /\ map line_of evs = ls /\
      md_printed d' = zlen (messages ls)).
Proof.
  intros lim conv m0 r rs tail (HX & _ & Hi) HR HL HL2 HT ls.
  assert (EB : runs_bytes (r :: rs) ++ tail = execution_bytes (pr_junk r) (pr_cp r) (pr_dict r) ++ pfile (pr_items r) ++ runs_bytes rs ++ tail).
  { unfold runs_bytes. cbn [map concat]. unfold run_bytes at 1. now rewrite <- !app_assoc. }
  assert (H0 : holds lim (Metas m0 0 [] []) []) by (unfold holds, uses; cbn; auto).
  destruct (C41_partial lim (pr_junk r) (Checkpoint 0 0 (repeat 0 8)) (pr_cp r) [] (pr_dict r) (Metas m0 0 [] []) (pfile (pr_items r) ++ runs_bytes rs ++ tail) H0 HX)
    as (st & D' & R & DD & US).
  { change (zlen (metas_bytes [])) with 0. lia. }
  { now left. }
  rewrite <- DD in Hi, HR. rewrite <- (same_size D' (pr_dict r) DD) in HL2.
  rewrite EB. unfold md_open_file, new_mdecoder. cbn [md_cp md_st md_bf md_free]. rewrite R. eexists. split; [reflexivity|]. split.
  - destruct (pre_runs lim conv rs D' st (pr_items r) US HR HL2 Hi (pr_cp r) true 0 new_bfrag [] new_bfrag tail
      (S (S (length (pfile (pr_items r) ++ runs_bytes rs ++ tail)))) HT ltac:(lia)) as (d' & b' & evs & EL & F1 & F2 & F3).
    eexists _, evs. unfold m_decompressUnordered. cbn [md_open negb md_free md_file md_printed md_bf md_good md_cp md_st f_rest allocateBufferFragment].
    rewrite EL, F3, F2, Z.add_0_l. split; [reflexivity|exact F1].
  - destruct (m_iterate_runs lim conv _ rs D' st (pr_cp r) 0 new_bfrag [] (pr_items r) tail (bf_tid new_bfrag) [] US HR HL2 eq_refl) as (d' & evs & E1 & E2 & E3); auto.
    { split; reflexivity. }
    exists d', evs. split; [exact E1|]. split; [exact E2|]. rewrite E3. cbn [map app]. unfold ls, zlen. lia.
Qed.
