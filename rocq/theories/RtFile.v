(** From the invariant of the running system to what its files say. *)
From Verif Require Import Base BaseProofs FrontFmt Prop_FrontFmt Prop_MicroCode Args Printf ArgsProofs Prop_Args DecodeProofs Encoder Wire
  EncoderProofs Prop_Encoder Decoder FileSpec DecoderProofs Prop_Decoder Ring RingProofs Prop_Ring Runtime RtRing RtBuf RtInv RtSafe.
From Coq Require Import Permutation.

Ltac Zify.zify_post_hook ::= Z.div_mod_to_equations.

(** ** How buffers and statements change in one step *)

Definition grows (l : rlabel) (t : rt) (b b' : buf) : Prop :=
  b_id b = b_id b' /\ (b_msgs b' = b_msgs b \/ exists j x, l = RLog j x /\ b_msgs b' = b_msgs b ++ [x]).

Definition bufs_step (l : rlabel) (t t' : rt) : Prop :=
  (forall b', In b' (t_bufs t' ++ t_gone t') -> b_msgs b' = [] \/ exists b, In b (t_bufs t ++ t_gone t) /\ grows l t b b') /\
  exists x, t_sites t' = t_sites t ++ x.

Lemma bufs_same : forall l t t', t_bufs t' = t_bufs t -> t_gone t' = t_gone t -> t_sites t' = t_sites t -> bufs_step l t t'.
Proof.
  intros l t t' E1 E2 E3. split.
  - rewrite E1, E2. intros b' Hb. right. exists b'. split; auto. split; auto.
  - exists []. now rewrite E3, app_nil_r.
Qed.

Lemma in_update : forall A j (x y : A) l, In y (update j x l) -> y = x \/ In y l.
Proof.
  induction j as [|j IH]; intros x y [|z l] H; cbn in *; auto.
  - destruct H; auto.
  - destruct H as [H|H]; auto. apply IH in H. tauto.
Qed.

Lemma in_remove : forall A j (x : A) l, In x (remove_at j l) -> In x l.
Proof.
  intros A j x l H. unfold remove_at in H. apply in_app_or in H. destruct H as [H | H].
  - rewrite <- (firstn_skipn j l). apply in_or_app. now left.
  - rewrite <- (firstn_skipn (S j) l). apply in_or_app. now right.
Qed.

Lemma bufs_update : forall l t t' j b b', nth_error (t_bufs t) j = Some b -> grows l t b b' ->
  t_bufs t' = update j b' (t_bufs t) -> t_gone t' = t_gone t -> t_sites t' = t_sites t -> bufs_step l t t'.
Proof.
  intros l t t' j b b' HB HG E1 E2 E3. split.
  - rewrite E1, E2. intros c Hc. right. apply in_app_or in Hc. destruct Hc as [Hc | Hc].
    + apply in_update in Hc. destruct Hc as [-> | Hc].
      * exists b. split; auto. apply in_or_app. left. eapply nth_error_In; eauto.
      * exists c. split; [apply in_or_app; auto|]. split; auto.
    + exists c. split; [apply in_or_app; auto|]. split; auto.
  - exists []. now rewrite E3, app_nil_r.
Qed.

Lemma bufs_on_ring : forall l t t0 t' j lab, on_ring j lab t0 = Some t' -> t_bufs t0 = t_bufs t -> t_gone t0 = t_gone t -> t_sites t0 = t_sites t ->
  bufs_step l t t'.
Proof.
  intros l t t0 t' j lab E E1 E2 E3. unfold on_ring in E. rewrite E1 in E. destruct (nth_error (t_bufs t) j) as [b|] eqn:EB; [|discriminate].
  destruct (ring_step _ _ _) as [r|]; [|discriminate]. apply some_inj in E. subst t'.
  eapply bufs_update; eauto; [|rt_cbn; rewrite ?E1; reflexivity]. split; auto.
Qed.

Lemma notify_fields : forall t, t_bufs (notify t) = t_bufs t /\ t_gone (notify t) = t_gone t /\ t_sites (notify t) = t_sites t.
Proof. intros t. unfold notify. destruct (t_waiters t); auto. destruct (w_switch w); auto. Qed.

Lemma bufs_notify : forall l t t', t_bufs t' = t_bufs t -> t_gone t' = t_gone t -> t_sites t' = t_sites t -> bufs_step l t (notify t').
Proof. intros. destruct (notify_fields t') as (A & B & C). apply bufs_same; congruence. Qed.

Lemma finish_bufs : forall l t, bufs_step l t (k_finish_io t).
Proof. intros. unfold k_finish_io. destruct (t_sync t); try (now apply bufs_same). now apply bufs_notify. Qed.

Lemma step_bufs : forall l t t', rt_step l t = Some t' -> bufs_step l t t'.
Proof.
  intros l t t' E. destruct l; cbn [rt_step] in E; try (apply some_inj in E; subst t').
  - split; [|exists [s]; reflexivity]. intros b Hb. right. exists b. split; auto. split; auto.
  - now apply bufs_same.
  - destruct (nth_error (t_pend t) k) as [id|]; [|discriminate]. apply some_inj in E. subst t'. split; [|exists []; rt_cbn; now rewrite app_nil_r].
    rt_cbn. intros b Hb. rewrite <- app_assoc in Hb. apply in_app_or in Hb. destruct Hb as [Hb | [<- | Hb]]; auto;
      right; exists b; (split; [apply in_or_app; auto|split; auto]).
  - destruct (nth_error (t_sites t) _) as [s|]; [|discriminate]. destruct (nth_error (t_bufs t) j) as [b|] eqn:EB; [|discriminate].
    destruct (ring_step _ _ _) as [r|]; [|discriminate]. apply some_inj in E. subst t'.
    eapply bufs_update; eauto; [|rt_cbn; reflexivity]. split; auto. right. eauto.
  - eapply bufs_on_ring; eauto.
  - eapply bufs_on_ring; eauto.
  - eapply bufs_on_ring; eauto.
  - eapply bufs_on_ring; eauto.
  - unfold k_step in E. cbv zeta in E. destruct (t_kpc t); try (apply some_inj in E; subst t'); try discriminate; try (now apply bufs_same).
    + unfold k_dict. destruct (t_nextp t <? zlen (t_sites t)); [|now apply bufs_same].
      destruct (encodeNewDictionaryEntries _ _ _) as [[e n] ret]. now apply bufs_same.
    + destruct (t_kfull t); [apply some_inj in E; subst t'; now apply bufs_same|].
      destruct (t_bufs t) eqn:EB; [apply some_inj in E; subst t'; now apply bufs_same|].
      destruct (on_ring _ _ _) as [t1|] eqn:ER; [|discriminate]. apply some_inj in E. subst t'.
      apply (bufs_on_ring RThread t) in ER; auto.
    + destruct (nth_error (t_bufs t) _) as [b|] eqn:EB; [|discriminate]. destruct (c_pc (r_c (b_ring b))); try discriminate;
        try (eapply bufs_on_ring; eauto; fail). destruct (0 <? n); [apply some_inj in E; subst t'; now apply bufs_same|].
      destruct (on_ring _ _ _) as [t1|] eqn:ER; [|discriminate]. apply some_inj in E. subst t'.
      apply (bufs_on_ring RThread t) in ER; auto.
    + destruct (nth_error (t_bufs t) _) as [b|] eqn:EB; [|discriminate]. destruct (c_pc (r_c (b_ring b))); try discriminate.
      destruct (n =? 0); [apply some_inj in E; subst t'; now apply bufs_same|]. unfold k_encode in E.
      destruct (encodeLogMsgs _ _ _ _ _ _ _) as [[e read] cnt]. destruct (read =? 0); [apply some_inj in E; subst t'; now apply bufs_same|].
      destruct (ring_run _ _ _) as [r'|]; [|discriminate]. apply some_inj in E. subst t'.
      eapply bufs_update; eauto; [|rt_cbn; reflexivity]. split; auto.
    + destruct (nth_error (t_bufs t) _) as [b|] eqn:EB; [|discriminate]. destruct (c_pc (r_c (b_ring b))); try discriminate.
      destruct (on_ring _ _ _) as [t1|] eqn:ER; [|discriminate].
      apply (bufs_on_ring RThread t) in ER; auto.
      destruct (nth_error (t_bufs t1) _) as [b'|] eqn:EB'; [|discriminate].
      destruct (c_pc (r_c (b_ring b'))); apply some_inj in E; subst t'; auto.
      destruct ER as (R1 & R2). unfold k_delete.
      assert (X : forall c, In c (remove_at (Z.to_nat (t_ki t1)) (t_bufs t1) ++ t_gone t1 ++ [b']) -> In c (t_bufs t1 ++ t_gone t1)).
      { intros c Hc. apply in_app_or in Hc. destruct Hc as [Hc | Hc].
        - apply in_or_app. left. eapply in_remove; eauto.
        - apply in_app_or in Hc. apply in_or_app. destruct Hc as [Hc | [<- | []]]; auto. left. eapply nth_error_In; eauto. }
      split.
      * intros c Hc. apply R1, X. destruct (remove_at (Z.to_nat (t_ki t1)) (t_bufs t1)); exact Hc.
      * destruct (remove_at (Z.to_nat (t_ki t1)) (t_bufs t1)); exact R2.
    + unfold k_idle. destruct (encoded t =? 0); [|now apply bufs_same].
      destruct (t_sync t); try (now apply bufs_same); [|now apply bufs_notify].
      destruct (t_outst t); [now apply bufs_same|now apply bufs_notify].
    + unfold k_io in E. destruct (t_outst t); [|apply some_inj in E; subst t'; now apply bufs_same].
      destruct (t_flight t); [apply some_inj in E; subst t'; apply finish_bufs|].
      destruct (t_kfull t); [discriminate|]. apply some_inj in E; subst t'; now apply bufs_same.
    + unfold k_write. destruct (encoded t =? 0); [now apply bufs_same|]. cbn [swapBuffer]. now apply bufs_same.
  - destruct (nth_error (t_flight t) k) as [[base n]|]; [|discriminate]. apply some_inj in E. subst t'. now apply bufs_same.
  - destruct (t_kpc t); try discriminate. destruct (t_flight t); [discriminate|]. destruct (t_outst t && t_kfull t); [|discriminate].
    apply some_inj in E. subst t'. apply finish_bufs.
  - destruct (snap_ok t snap); [|discriminate]. apply some_inj in E. subst t'. now apply bufs_same.
  - destruct (t_waiters t); [discriminate|]. apply some_inj in E. subst t'. now apply bufs_same.
  - destruct (t_waiters t); [discriminate|]. apply some_inj in E. subst t'. now apply bufs_notify.
  - destruct (t_sw t); try discriminate. destruct (snap_ok t snap); [|discriminate]. apply some_inj in E. subst t'. now apply bufs_same.
  - destruct (t_sw t); try discriminate. apply some_inj in E. subst t'. now apply bufs_same.
  - destruct (t_sw t); try discriminate. destruct (t_kpc t); try discriminate. destruct (encoder _ _ _ _ _ _ _) as [e|]; [|discriminate].
    apply some_inj in E. subst t'. now apply bufs_same.
  - destruct (t_kpc t); try discriminate. apply some_inj in E. subst t'. now apply bufs_same.
Qed.

(** ** What was logged *)

Definition inv_said (conv : rconv -> list Z) (text : smsg -> list Z) (t : rt) : Prop :=
  Forall (fun b => Forall (fun x => said conv (t_sites t) x (text x)) (b_msgs b)) (t_bufs t ++ t_gone t).

Lemma said_more : forall conv sites y x text, said conv sites x text -> said conv (sites ++ y) x text.
Proof.
  intros conv sites y x text (s & ps & n & A & B). exists s, ps, n. split; auto. now apply nth_error_more.
Qed.

Lemma step_said : forall conv text l t t', inv_said conv text t -> rt_step l t = Some t' ->
  (forall j x, l = RLog j x -> said conv (t_sites t) x (text x)) -> inv_said conv text t'.
Proof.
  intros conv text l t t' H E HL. destruct (step_bufs _ _ _ E) as (A & y & B). unfold inv_said in *. rewrite B.
  apply Forall_forall. intros b' Hb. destruct (A b' Hb) as [-> | (b & Hb1 & _ & HM)]; [constructor|].
  eapply Forall_forall in H; [|exact Hb1]. cbv beta in H.
  destruct HM as [-> | (j & x & -> & ->)].
  - eapply Forall_impl; [|exact H]. intros. now apply said_more.
  - apply Forall_app. split; [eapply Forall_impl; [|exact H]; intros; now apply said_more|].
    constructor; [|constructor]. apply said_more. eapply HL; eauto.
Qed.

(** ** Every line belongs to a buffer *)

Lemma emitted_in : forall tid np xs gs x, In (GExtent tid np xs) gs -> In x xs -> In x (emitted tid gs).
Proof.
  intros tid np xs gs x H Hx. unfold emitted. apply in_concat. exists xs. split; auto. apply in_map_iff.
  exists (GExtent tid np xs). split; auto. cbn. now rewrite Z.eqb_refl.
Qed.

Lemma all_ids : forall small t id, inv small t -> 0 <= id < t_nextid t ->
  In id (map b_id (t_bufs t) ++ map b_id (t_gone t) ++ t_pend t).
Proof.
  intros small t id H HI. inv_split H. destruct HId as (A & B & C & D). cbv zeta in *.
  set (ids := map b_id (t_bufs t) ++ map b_id (t_gone t) ++ t_pend t) in *.
  assert (X : incl (map Z.of_nat (seq 0 (Z.to_nat (t_nextid t)))) ids).
  { apply NoDup_length_incl; auto.
    - rewrite map_length, seq_length. unfold zlen in D. lia.
    - intros z Hz. eapply Forall_forall in B; eauto. cbv beta in B. apply in_map_iff. exists (Z.to_nat z). split; [lia|]. apply in_seq. lia. }
  apply X. apply in_map_iff. exists (Z.to_nat id). split; [lia|]. apply in_seq. lia.
Qed.

Lemma emitted_buf : forall small t id, inv small t -> 0 <= id -> emitted id (everything t) <> [] ->
  exists b, In b (t_bufs t ++ t_gone t) /\ b_id b = id /\ exists k, emitted id (everything t) = firstn k (b_msgs b).
Proof.
  intros small t id H H0 HN. pose proof H as H'. inv_split H'. destruct HAc as (A & B & C).
  destruct (Z.lt_ge_cases id (t_nextid t)) as [HI | HI]; [|exfalso; apply HN, C; auto].
  pose proof (all_ids small t id H (conj H0 HI)) as X. rewrite app_assoc in X. apply in_app_or in X. destruct X as [X | X]; [|exfalso; apply HN, C; auto].
  rewrite <- map_app in X. apply in_map_iff in X. destruct X as (b & Eb & Hb). exists b. splits; auto.
  apply in_app_or in Hb. destruct Hb as [Hb | Hb].
  - eapply Forall_forall in A; eauto. unfold acc_ok in A. rewrite Eb in A. eauto.
  - eapply Forall_forall in B; eauto. destruct B as (B & _). rewrite Eb in B. exists (length (b_msgs b)). now rewrite firstn_all.
Qed.

Definition all_said (conv : rconv -> list Z) (text : smsg -> list Z) (sites : list site) (gs : list gitem) : Prop :=
  forall tid np xs, In (GExtent tid np xs) gs -> Forall (fun x => said conv sites x (text x)) xs.


(** ** The lines of a file *)

Definition gline (text : smsg -> list Z) (sites : list site) (cp : checkpoint) (tid : Z) (x : smsg) : oline :=
  match nth_error sites (Z.to_nat (sm_id x)) with
  | Some s => LMsg (Shown cp (sm_id x) (sm_ts x) tid (si_file s) (si_line s) (si_severity s) (text x))
  | None => LNewExecution
  end.

Fixpoint glines (text : smsg -> list Z) (sites : list site) (cp : checkpoint) (gs : list gitem) : list oline :=
  match gs with
  | [] => []
  | GExtent tid _ xs :: r => map (gline text sites cp tid) xs ++ glines text sites cp r
  | GCheckpoint a u c :: r => LNewExecution :: glines text sites (Checkpoint a u c) r
  | GDict _ _ :: r => glines text sites cp r
  end.

Lemma show_gline : forall conv text sites cp tid xs fs, Forall (fun x => said conv sites x (text x)) xs ->
  map Some (map (show cp tid) fs) = map (said_line cp tid sites) (combine xs (map text xs)) ->
  map (show cp tid) fs = map (gline text sites cp tid) xs.
Proof.
  intros conv text sites cp tid. induction xs as [|x xs IH]; intros [|f fs] H E; cbn [map combine] in E; try discriminate; auto.
  inversion H as [|? ? (s & ps & n & N & _) H2]; subst. cbn [map]. unfold said_line in E at 1. cbn [fst snd] in E. unfold gline at 1. rewrite N in *.
  f_equal; [congruence|]. apply IH; auto. congruence.
Qed.

Lemma wires_items : forall (small : Prop) conv text sites gs bytes k cp, small -> Forall site_ok sites ->
  wires small sites gs bytes -> gok sites k gs -> (k <= length sites)%nat ->
  (forall tid np xs, In (GExtent tid np xs) gs -> Forall (fun x => said conv sites x (text x)) xs) ->
  exists items, file_bytes items = bytes /\ items_ok conv (firstn k sites) items /\ file_lines cp items = glines text sites cp gs /\
    (starts gs -> exists junk cp' r, items = ICheckpoint junk cp' :: r).
Proof.
  intros small conv text sites gs bytes k cp Hs Hok (bss & W & ->). revert k cp.
  induction W as [|g b gs bss W _ IH]; intros k cp HG HK HA.
  - exists []. splits; auto; try exact I. intros (? & ? & ? & ? & X). discriminate X.
  - assert (HA' : forall tid np xs, In (GExtent tid np xs) gs -> Forall (fun x => said conv sites x (text x)) xs).
    { intros. eapply HA. right. eauto. }
    destruct g as [r u c|total ss|tid np xs]; cbn [wire gok] in *.
    + destruct W as ((T1 & T2 & T3 & T4) & junk & J & ->).
      destruct (IH 0%nat (Checkpoint r u c) HG ltac:(lia) HA') as (its & I1 & I2 & I3 & _).
      exists (ICheckpoint junk (Checkpoint r u c) :: its). splits.
      * unfold file_bytes in *. cbn [map concat item_bytes cp_rdtsc cp_unixTime cp_cps]. now rewrite I1.
      * cbn [items_ok item_ok cp_rdtsc cp_unixTime cp_cps knows]. splits; auto; try lia.
      * cbn [file_lines glines]. now rewrite I3.
      * eauto.
    + destruct HG as (G1 & G2 & G3). destruct W as (-> & W1 & W2).
      assert (LS : (k + length ss <= length sites)%nat).
      { apply (f_equal (@length _)) in G1. rewrite firstn_length, skipn_length in G1. lia. }
      destruct (IH (k + length ss)%nat cp G3 LS HA') as (its & I1 & I2 & I3 & _).
      exists (IDict total ss :: its). splits.
      * unfold file_bytes in *. cbn [map concat item_bytes]. now rewrite I1.
      * cbn [items_ok item_ok knows]. splits; auto; try lia.
        -- rewrite G1. apply Forall_firstn. rewrite <- (firstn_skipn k sites) in Hok. apply Forall_app in Hok. exact (proj2 Hok).
        -- rewrite firstn_plus in I2. rewrite <- G1 in I2. exact I2.
      * cbn [file_lines glines]. exact I3.
      * intros (? & ? & ? & ? & X). discriminate X.
    + destruct HG as (G1 & G2). destruct W as (W1 & (sbs & W2) & ws & W3 & -> & W4).
      destruct (IH k cp G2 HK HA') as (its & I1 & I2 & I3 & _).
      assert (HX : Forall (fun x => said conv sites x (text x)) xs) by (eapply HA; left; reflexivity).
      destruct (staged_fmsgs conv sites k cp tid xs ws (map text xs) W3 (staged_ranges _ _ _ W2) G1) as (fs & F1 & F2 & F3).
      { clear - HX. induction HX; cbn [map]; constructor; auto. }
      exists (IExtent tid np fs :: its). splits.
      * unfold file_bytes in *. cbn [map concat item_bytes]. now rewrite I1, F1.
      * cbn [items_ok item_ok item_bytes knows]. rewrite F1. splits; auto; try lia.
      * cbn [file_lines glines]. rewrite I3. f_equal. eapply show_gline; eauto.
      * intros (? & ? & ? & ? & X). discriminate X.
Qed.

Definition tid_lines (id : Z) (ls : list oline) : list shown := filter (fun s => sh_tid s =? id) (messages ls).

Lemma messages_app : forall a b, messages (a ++ b) = messages a ++ messages b.
Proof. intros. unfold messages. now rewrite map_app, concat_app. Qed.

Lemma tid_lines_app : forall id a b, tid_lines id (a ++ b) = tid_lines id a ++ tid_lines id b.
Proof. intros. unfold tid_lines. rewrite messages_app. apply filter_app. Qed.

(** Message [x] of thread [id], as shown. *)
Definition shows (sites : list site) (text : smsg -> list Z) (id : Z) (x : smsg) (s : shown) : Prop :=
  sh_tid s = id /\ sh_id s = sm_id x /\ sh_ts s = sm_ts x /\ sh_text s = text x /\
  exists st, nth_error sites (Z.to_nat (sm_id x)) = Some st /\
    sh_file s = si_file st /\ sh_line s = si_line st /\ sh_level s = si_severity st.

Lemma glines_tid : forall conv text sites gs cp id,
  (forall tid np xs, In (GExtent tid np xs) gs -> Forall (fun x => said conv sites x (text x)) xs) ->
  Forall2 (shows sites text id) (emitted id gs) (tid_lines id (glines text sites cp gs)).
Proof.
  intros conv text sites. induction gs as [|[r u c|total ss|tid np xs] gs IH]; intros cp id HA.
  - constructor.
  - cbn [glines emitted map emits concat app]. apply (IH (Checkpoint r u c) id). intros. eapply HA. right. eauto.
  - apply (IH cp id). intros. eapply HA. right. eauto.
  - change (emitted id (GExtent tid np xs :: gs)) with ((if tid =? id then xs else []) ++ emitted id gs).
    cbn [glines]. rewrite tid_lines_app. apply Forall2_app; [|apply IH; intros; eapply HA; right; eauto].
    assert (HX : Forall (fun x => said conv sites x (text x)) xs) by (eapply HA; left; reflexivity). clear HA IH.
    induction HX as [|x xs (s & ps & n & N & _) _ IH]; [destruct (tid =? id); constructor|].
    change (map (gline text sites cp tid) (x :: xs)) with ([gline text sites cp tid x] ++ map (gline text sites cp tid) xs).
    rewrite tid_lines_app. unfold gline at 1. rewrite N. unfold tid_lines at 1, messages. cbn [map concat app filter sh_tid].
    destruct (Z.eqb_spec tid id) as [->|]; [|exact IH]. cbn [app]. constructor; [|exact IH].
    unfold shows. cbn [sh_tid sh_id sh_ts sh_text sh_file sh_line sh_level]. splits; auto. exists s. auto.
Qed.

(** What a decoder finds in the file [f]; an empty file is no log file. *)
Definition decodes (conv : rconv -> list Z) (f : list Z) (ls : list oline) : Prop :=
  (f = [] /\ ls = []) \/
  exists d1 d2 evs, d_open_file new_decoder f = Some (d1, true) /\
    decompressUnordered conv d1 = Some (d2, evs, zlen (messages ls)) /\ map line_of evs = ls /\ d_good d2 = true.

Lemma wires_decodes : forall (small : Prop) conv text sites gs bytes, small -> Forall site_ok sites ->
  wires small sites gs bytes -> gok sites 0 gs -> (gs = [] \/ starts gs) ->
  (forall tid np xs, In (GExtent tid np xs) gs -> Forall (fun x => said conv sites x (text x)) xs) ->
  exists ls, decodes conv bytes ls /\ forall id, Forall2 (shows sites text id) (emitted id gs) (tid_lines id ls).
Proof.
  intros small conv text sites gs bytes Hs Hok HW HG HS HA.
  destruct HS as [-> | HS].
  - exists []. split; [|constructor]. left. split; auto. destruct HW as (bss & W & ->). inversion W. reflexivity.
  - pose proof HS as (r & u & c & gs' & E).
    destruct (wires_items small conv text sites gs bytes 0 (Checkpoint r u c) Hs Hok HW HG ltac:(lia) HA) as (items & I1 & I2 & I3 & I4).
    destruct (I4 HS) as (junk & cp & its & EI). subst items gs.
    cbn [file_lines glines] in I3. assert (F : file_ok conv (ICheckpoint junk cp :: its)) by exact I2.
    destruct (C18_unordered_complete conv new_decoder _ F) as (d1 & d2 & evs & D1 & D2 & D3 & D4).
    exists (lines_of (ICheckpoint junk cp :: its)). rewrite I1 in D1. split; [right; eauto 8|].
    intros id. cbn [lines_of]. assert (X : file_lines cp its = glines text sites (Checkpoint r u c) gs') by congruence.
    rewrite X. change (emitted id (GCheckpoint r u c :: gs')) with (emitted id gs'). eapply glines_tid. intros. eapply HA. right. eauto.
Qed.
