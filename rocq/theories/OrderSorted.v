(** Ordered decompression of a file whose messages are in the order of their time stamps already. *)
From Verif Require Import Base BaseProofs Printf Encoder Wire Decode DecodeProofs Decoder FileSpec DecoderProofs OrderSpec Ordered OrderedProofs
  OrderTheory Prop_Ordered.
From Coq Require Import Permutation Sorted.

(** Everything printed is in order and not after what is left; [seg] is in order, and not before what is buffered. *)
Definition lined (st : list (list afrag)) (seg : list item) (acc : list oline) : Prop :=
  (forall f, In f (concat st) -> StronglySorted le_ts (a_ms f)) /\ chronological acc /\
  (forall t, In t (map sh_ts (messages acc)) -> below t (pool st seg)) /\
  (forall x, In x (msgs_of (concat st)) -> below (ts x) (flat_map item_msgs seg)) /\ StronglySorted le_ts (flat_map item_msgs seg).

Lemma load_suffix : forall seg free st n cp l, one_execution seg -> a_load seg free st n cp = Some l -> exists pre, seg = pre ++ l_items l.
Proof.
  induction seg as [|it seg IH]; intros free st n cp l H1 E; cbn [a_load] in E; [injection E as <-; exists []; reflexivity|].
  inversion H1 as [|? ? Hit H1']; subst. destruct it as [bs|t ss|tid np ms|? ?]; [| | |discriminate Hit].
  1,2: destruct (IH _ _ _ _ _ H1' E) as (pre & P); eexists (_ :: pre); cbn [app]; f_equal; exact P.
  cbv zeta in E. destruct (_ =? 3)%nat.
  - injection E as <-. cbn [l_items]. exists [IExtent tid np ms]. reflexivity.
  - destruct (IH _ _ _ _ _ H1' E) as (pre & P). exists (IExtent tid np ms :: pre). cbn [app]. now rewrite P at 1.
Qed.

Lemma sorted_app : forall l r : list fmsg, StronglySorted le_ts (l ++ r) <->
  StronglySorted le_ts l /\ StronglySorted le_ts r /\ forall x y, In x l -> In y r -> le_ts x y.
Proof.
  induction l as [|a l IH]; intros r; cbn [app].
  - split; [intros H; splits; auto; [constructor|intros x y []]|intros (_ & H & _); exact H].
  - split.
    + intros H. inversion H as [|? ? H1 H2]; subst. apply IH in H1. destruct H1 as (A & B & C). apply Forall_app in H2. destruct H2 as (D & F).
      splits; auto; [now constructor|]. intros x y [<-|Hx] Hy; [rewrite Forall_forall in F; auto|auto].
    + intros (A & B & C). inversion A as [|? ? A1 A2]; subst. constructor.
      * apply IH. splits; auto. intros x y Hx. apply C. now right.
      * apply Forall_app. split; auto. apply Forall_forall. intros y Hy. apply C; auto. now left.
Qed.

Lemma extents_of_sorted : forall seg tid np ms, StronglySorted le_ts (flat_map item_msgs seg) -> In (IExtent tid np ms) seg -> StronglySorted le_ts ms.
Proof.
  induction seg as [|it seg IH]; intros tid np ms H HI; [contradiction|]. cbn [flat_map] in H. apply sorted_app in H. destruct H as (A & B & _).
  destruct HI as [->|HI]; [exact A|eauto].
Qed.

Lemma load_lined : forall free st n seg cp free' st' n' pre seg' acc, loads free st n seg cp free' st' n' seg' -> seg = pre ++ seg' ->
  lined st seg acc -> lined st' seg' acc.
Proof.
  intros free st n seg cp free' st' n' pre seg' acc (L1 & L2 & L3 & L4 & L5 & L6 & L7 & L8) E (I1 & I2 & I3 & I4 & I5). unfold lined. rewrite L4. splits; auto.
  - intros f Hf. destruct (L5 f Hf) as [H|(tid & np & ms & s & X1 & -> & _)]; [now apply I1|]. cbn [a_ms]. eapply extents_of_sorted; eauto.
  - assert (EM : msgs_of (concat st') = msgs_of (concat st) ++ flat_map item_msgs pre).
    { unfold pool in L4. rewrite E, flat_map_app, app_assoc in L4. now apply app_inv_tail in L4. }
    rewrite E, flat_map_app in I4, I5. apply sorted_app in I5. destruct I5 as (S1 & S2 & S3). rewrite EM. intros x Hx y Hy.
    apply in_app_or in Hx. destruct Hx as [Hx|Hx]; [apply (I4 x Hx); apply in_or_app; now right|apply (S3 x y Hx Hy)].
  - rewrite E, flat_map_app in I5. now apply sorted_app in I5.
Qed.

Lemma lined_step : forall st n acc seg i j b b' more evs cp, flushed st n -> lined st seg acc -> (i < n)%nat ->
  nth_error (nth i st []) j = Some b ->
  (forall i' b'', (i' < n)%nat -> In b'' (nth i' st []) -> akey b <= akey b'' /\ ((i' < i)%nat -> akey b < akey b'')) ->
  anext cp b = Some (b', more, evs) ->
  let st1 := set_nth i (remove_nth j (nth i st []) ++ (if more then [b'] else [])) st in lined st1 seg (acc ++ evs).
Proof.
  intros st n acc seg i j b b' more evs cp HF (I1 & I2 & I3 & I4 & I5) Hi Hb Hmin HN st1.
  assert (Ib : In b (concat st)) by (apply in_concat_nth; exists i; eapply nth_error_In; eauto).
  pose proof (anext_inv _ _ _ _ _ HN) as HA.
  assert (F1 : forall f, In f (concat st1) -> In f (concat st) \/ (more = true /\ f = b')).
  { intros f Hf. apply in_concat_nth in Hf. destruct Hf as (i' & Hf). destruct (step_in _ _ _ _ _ _ _ _ HF Hi Hf) as [H|(_ & H1 & H2)]; [left; apply in_concat_nth; eauto|auto]. }
  assert (IB : incl (a_ms b') (a_ms b)).
  { destruct HA as [(_ & -> & _)|(m & r & -> & -> & _)]; intros x Hx; cbn [a_ms] in *; [auto|now right]. }
  assert (IM : incl (msgs_of (concat st1)) (msgs_of (concat st))).
  { intros m Hm. apply in_msgs in Hm. destruct Hm as (f & Hf & Hm). apply in_msgs. destruct (F1 f Hf) as [H|[_ ->]]; [eauto|]. exists b. split; auto. }
  assert (IA : incl (pool st1 seg) (pool st seg)).
  { unfold pool. intros m Hm. rewrite in_app_iff in *. destruct Hm as [Hm|Hm]; [left; now apply IM|now right]. }
  assert (KM : forall m r, a_ms b = m :: r -> below (ts m) (pool st1 seg)).
  { intros m r EM x Hx. assert (Hm : In m (msgs_of (concat st))) by (apply in_msgs; exists b; split; auto; rewrite EM; now left).
    unfold pool in Hx. apply in_app_or in Hx. destruct Hx as [Hx|Hx]; [|now apply (I4 m Hm)].
    apply IM, in_msgs in Hx. destruct Hx as (f & Hf & Hx).
    assert (KB : akey b = ts m) by (unfold akey; now rewrite EM).
    pose proof (I1 f Hf) as SF. apply in_concat_nth in Hf. destruct Hf as (i' & Hf).
    destruct (Hmin i' f (in_nth_lt _ _ _ _ HF Hf) Hf) as [K _]. rewrite <- KB. etransitivity; [exact K|]. unfold akey.
    destruct (a_ms f) as [|y l]; [contradiction|]. inversion SF as [|? ? _ HFy]; subst. destruct Hx as [->|Hx]; [lia|]. rewrite Forall_forall in HFy. apply (HFy x Hx). }
  unfold lined. splits.
  - intros f Hf. destruct (F1 f Hf) as [H|[_ ->]]; auto. specialize (I1 b Ib). destruct HA as [(_ & -> & _)|(m & r & EM & -> & _)]; auto.
    rewrite EM in I1. inversion I1; auto.
  - unfold chronological in *. destruct HA as [(_ & _ & _ & ->)|(m & r & EM & _ & _ & ->)]; [rewrite app_nil_r; auto|].
    rewrite messages_app, map_app. change (map sh_ts (messages [show cp (a_tid b) m])) with [ts m].
    apply sorted_snoc; auto. apply Forall_forall. intros t Ht. apply (I3 t Ht). apply in_or_app. left. apply in_msgs. exists b. split; auto. rewrite EM. now left.
  - intros t Ht. destruct HA as [(_ & _ & _ & ->)|(m & r & EM & _ & _ & ->)]; [rewrite app_nil_r in Ht; eapply below_incl; [exact IA|auto]|].
    rewrite messages_app, map_app in Ht. change (map sh_ts (messages [show cp (a_tid b) m])) with [ts m] in Ht.
    apply in_app_or in Ht. destruct Ht as [Ht|[<-|[]]]; [eapply below_incl; [exact IA|auto]|]. now apply (KM m r).
  - intros x Hx. apply I4. now apply IM.
  - exact I5.
Qed.

Lemma deplete_lined : forall cp pick k must st n k' st' n' fr' ls acc seg, heap_front pick -> flushed st n ->
  deplete akey (anext cp) pick (S (weight amu st)) k must st n [] = Some (k', st', n', fr', ls) ->
  lined st seg acc -> lined st' seg (acc ++ ls).
Proof.
  intros cp pick k must st n k' st' n' fr' ls acc seg Hp HF HD HO.
  set (Inv := fun (s : list (list afrag)) (_ : nat) (_ : list afrag) (ac : list oline) => lined s seg ac).
  destruct (deplete_rule akey (anext cp) pick must amu Inv Inv Hp (anext_total cp)) with (fuel := S (weight amu st)) (k := k) (st := st) (n := n) (fr := @nil afrag) (acc := acc)
    as (k2 & st2 & n2 & fr2 & evs & E & HQ & _); auto.
  - intros s m fr ac i j b b' more evs HFs HI Hi Hb Hmin HN. cbv zeta.
    pose proof (lined_step _ _ _ _ _ _ _ _ _ _ _ HFs HI Hi Hb Hmin HN) as HI1. cbv zeta in HI1.
    set (s1 := set_nth i _ s) in *. destruct (nth 0 s1 []) eqn:E0; cbn [is_empty]; [|exact HI1].
    assert (HF1 : flushed s1 m) by (apply step_flushed; auto).
    assert (SH : concat (shift_stages m s1) = concat s1).
    { destruct (three_inv _ _ (proj1 HF1)) as (x & y & z & E1). rewrite E1 in *. cbn [nth] in E0. subst x. apply shift_spec; auto. lia. }
    unfold Inv, lined, pool in *. rewrite SH. destruct must; exact HI1.
  - destruct (deplete_det _ _ _ _ _ _ _ _ _ _ _ _ _ _ _ _ _ HD E) as (-> & -> & -> & -> & ->). apply HQ.
Qed.

Lemma run_lined : forall pick, heap_front pick -> forall fuel k seg free st n cp, one_execution seg -> flushed st n -> (n <= 2)%nat ->
  (nonpads seg + 1 <= fuel)%nat ->
  exists P, a_run pick fuel k seg free st n cp = Some P /\ forall acc, lined st seg acc -> chronological (acc ++ P).
Proof.
  intros pick Hp. induction fuel as [|fuel IH]; intros k seg free st n cp H1 HF Hn Hfu; [lia|]. cbn [a_run].
  pose proof (fun l => load_suffix seg free st n cp l H1) as SX.
  destruct (load_seg seg [] H1 free st n cp (behind_flushed _ _ HF Hn)) as [(free' & st' & seg' & E & L & N & O)|(free' & st' & n' & E & B & L & N)];
    rewrite app_nil_r in E; rewrite E in SX |- *; clear E.
  - rewrite app_nil_r in *. cbn [l_cp l_must l_stages l_n l_done l_lines l_items l_free].
    assert (F3 : flushed st' 3) by (split; [apply L|split; [lia|]]; intros i Hi; apply nth_overflow; destruct L as (L1 & _); unfold three in L1; lia).
    destruct (deplete_shape cp pick k false st' 3 Hp F3) as (k' & st2 & n2 & fr2 & ls & ED & FL2 & N2 & _). rewrite ED.
    destruct (IH k' seg' (map akey fr2 ++ free') st2 n2 cp O FL2 N2 ltac:(lia)) as (P & E & PC). rewrite E. exists (ls ++ P). splits; auto.
    destruct (SX _ eq_refl) as (pre & EP). cbn [l_items] in EP.
    intros acc HT. rewrite app_assoc. apply PC. eapply deplete_lined; [exact Hp|exact F3|exact ED|]. eapply load_lined; [exact L|exact EP|exact HT].
  - cbn [a_load l_cp l_must l_stages l_n l_done l_lines l_items l_free app].
    destruct (deplete_shape cp pick k true st' (flush_n st' n') Hp (flush_flushed _ _ B)) as (k' & st2 & n2 & fr2 & ls & ED & FL2 & N2 & M). rewrite ED.
    exists ls. destruct (M eq_refl) as [-> M2]. pose proof (empty_three _ _ (proj1 FL2) M2) as ->. splits; auto.
    intros acc HT. assert (X : lined [[]; []; []] [] (acc ++ ls)); [|apply X].
    eapply deplete_lined; [exact Hp|exact (flush_flushed _ _ B)|exact ED|]. eapply (load_lined _ _ _ seg _ _ _ _ seg []); [exact L|now rewrite app_nil_r|exact HT].
Qed.

(** Whatever the decoder was used for before, with extents that have no messages too. *)
Theorem sorted_file : forall conv pick d junk cp items, heap_front pick -> file_ok conv (ICheckpoint junk cp :: items) -> one_execution items ->
  StronglySorted le_ts (flat_map item_msgs items) ->
  exists d1 d2 evs,
    d_open_file d (file_bytes (ICheckpoint junk cp :: items)) = Some (d1, true) /\
    decompressTo conv pick d1 = Some (d2, evs, zlen (messages (map line_of evs))) /\
    Permutation (map line_of evs) (file_lines cp items) /\ chronological (map line_of evs).
Proof.
  intros conv pick d junk cp items Hp HF H1 HS. pose proof HF as [Hc Hi]. cbn [knows] in Hi.
  destruct (run_lined pick Hp (nonpads items + 1) 0 items (map bf_ts (d_free d)) [[]; []; []] 0 cp H1 flushed_start ltac:(lia) (le_n _)) as (P & ER & PC).
  destruct (run_last pick Hp (nonpads items + 1) 0 items (map bf_ts (d_free d)) [[]; []; []] 0 cp H1 flushed_start ltac:(lia) (le_n _)) as (P' & ER' & PP & _).
  assert (P' = P) by congruence. subst P'.
  destruct (ordered_file conv pick d junk cp items [] P Hp (conj Hc Hi) (or_introl eq_refl) ER) as (d1 & d2 & evs & F1 & F2 & F3 & _).
  rewrite app_nil_r in F1. exists d1, d2, evs. rewrite F3. splits; auto.
  specialize (PC []). cbn [app] in PC. apply PC. unfold lined, pool. cbn [concat msgs_of flat_map app]. splits; auto; try (intros ? []). constructor.
Qed.
Print Assumptions sorted_file.
