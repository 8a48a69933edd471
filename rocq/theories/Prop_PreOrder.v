(** C76: the log of a program the preprocessor handled, read one message at a
    time (getNextLogStatement) and in the order of the time stamps
    (decompressTo). *)
From Verif Require Import Base BaseProofs Packer PackerProofs LogHeader LogHeaderProofs Chars Fmt FmtProofs MicroCode Args ArgsProofs Printf Decode DecodeProofs
  RingProofs Encoder Wire EncoderProofs Decoder FileSpec DecoderProofs Ordered OrderedProofs OrderSpec OrderTheory Prop_Ordered
  MetaDict Preproc PreprocProofs FmtLax FrontFmt FrontFmtProofs Prop_FrontFmt Prop_Args Regex MicroCodeProofs
  PreprocLit Prop_Message GenCode GenSpec GenProofs GenRecord GenMessage Prop_MetaDict Prop_Preproc Prop_GenCode GenDict Prop_GenDict
  MicroMem MemDecoder Prop_MemDecoder PreEncoder PreEncoderProofs PreFile Prop_PreEnd PreOrder.
From Coq Require Import Permutation Sorted.
Ltac Zify.zify_post_hook ::= Z.div_mod_to_equations.

(** The messages the encoder took, by rounds over the threads: a batch with
    newPass is the last of its round. *)
Fixpoint rounds (bs : list batch) (ks : list Z) : list (list call) :=
  match bs, ks with
  | b :: bs', k :: ks' =>
    let now := firstn (Z.to_nat k) (ba_calls b) in
    if ba_pass b then now :: rounds bs' ks'
    else match rounds bs' ks' with r :: rs => (now ++ r) :: rs | [] => [now] end
  | _, _ => [[]]
  end.

(** Messages overtake one another by less than two rounds. *)
Definition nearly_in_order (rs : list (list call)) : Prop := forall i j x y, (i + 2 <= j)%nat ->
  In x (nth i rs []) -> In y (nth j rs []) -> ca_ts x <= ca_ts y.

(** Each thread's messages are in the order of their time stamps, and each call of the encoder took one. *)
Definition batches_sorted (bs : list batch) : Prop := Forall (fun b => StronglySorted (fun x y => ca_ts x <= ca_ts y) (ba_calls b)) bs.
Definition all_took (ks : list Z) : Prop := Forall (fun k => 0 < k) ks.

(** One message at a time: [length xs] calls of getNextLogStatement print a line each, the next call returns false. *)
Definition reads_each (lim : Z) (conv : rconv -> list Z) (d : mdecoder) (cp : checkpoint) (units : list (list stmt)) (xs : list (Z * call)) : Prop :=
  exists d' evs, m_iterate lim conv (S (length xs)) d = Some (d', evs, false) /\ md_printed d' = zlen xs /\
    Forall2 (shows cp units) xs (map line_of evs).

(** In order: each message once, and in the order of time. *)
Definition reads_ordered (lim : Z) (conv : rconv -> list Z) (pick : chooser) (d : mdecoder) (cp : checkpoint) (units : list (list stmt))
    (xs : list (Z * call)) (order : Prop) : Prop :=
  exists d' evs ls, m_decompressTo lim conv pick d = Some (d', evs, zlen xs) /\
    Permutation (map line_of evs) ls /\ Forall2 (shows cp units) xs ls /\ (order -> chronological (map line_of evs)).

Definition C76_full : Prop := forall widen conv pick units es e rdtsc unix cps e1 bs e2 ks pad lim,
  heap_front pick ->
  program_dict units = Some es -> Forall (fun s => 0 <= st_line s < 2 ^ 31) (concat units) ->
  enc_ready e -> 0 <= rdtsc < 2 ^ 64 -> 0 <= unix < 2 ^ 64 -> length cps = 8%nat -> Forall is_byte cps ->
  insertCheckpointDict e rdtsc unix cps es = (e1, true) ->
  Forall (fun b => Forall (call_defined widen conv units) (ba_calls b)) bs ->
  encoded widen units e1 bs e2 ks -> Forall pad_byte pad -> e_wp e2 - e_wp e <= lim ->
  forall m0, exists d,
    md_open_file lim (new_mdecoder m0) (load (e_mem e2) (e_wp e) (Z.to_nat (e_wp e2 - e_wp e)) ++ pad) = Some (d, true) /\
    reads_each lim conv d (Checkpoint rdtsc unix cps) units (taken bs ks) /\
    reads_ordered lim conv pick d (Checkpoint rdtsc unix cps) units (taken bs ks) (batches_sorted bs /\ nearly_in_order (rounds bs ks)).

(** ** The extents written are the batches *)

(** The time stamps in the extents of a file, in those of batches. *)
Definition stamps_of (it : pitem) : list (bool * list Z) :=
  match it with PPad _ => [] | PExtent _ np ms => [(np, map (fun m => w_ts (pm_w m)) ms)] end.
Fixpoint batch_stamps (bs : list batch) (ks : list Z) : list (bool * list Z) :=
  match bs, ks with
  | b :: bs', k :: ks' => (ba_pass b, map ca_ts (firstn (Z.to_nat k) (ba_calls b))) :: batch_stamps bs' ks'
  | _, _ => []
  end.

Lemma shows_stamps : forall cp units tid cs ms, Forall2 (shows cp units) (map (fun c => (tid, c)) cs) (map (pshow cp tid) ms) ->
  map (fun m => w_ts (pm_w m)) ms = map ca_ts cs.
Proof.
  intros cp units tid. induction cs as [|c cs IH]; intros [|m ms] H; inversion H as [|? ? ? ? (sh & E & _ & _ & T & _) H']; subst; [reflexivity|].
  cbn [map]. rewrite (IH ms H'). f_equal. injection E as <-. exact T.
Qed.

Lemma encoded_items : forall widen conv units es cp, program_ok units es -> forall e bs e2 ks, encoded widen units e bs e2 ks ->
  enc_ready e -> Forall (fun b => Forall (call_defined widen conv units) (ba_calls b)) bs ->
  Forall (fun b => Forall call_ok (ba_calls b)) bs ->
  exists items, Forall (pitem_ok conv (map mc_of es)) items /\ e_wp e <= e_wp e2 /\ enc_ready e2 /\
    load (e_mem e2) (e_wp e) (Z.to_nat (e_wp e2 - e_wp e)) = pfile items /\
    (forall y, y < e_wp e -> e_mem e2 y = e_mem e y) /\
    Forall2 (shows cp units) (taken bs ks) (plines cp items) /\
    (all_took ks -> flat_map stamps_of items = batch_stamps bs ks) /\
    (forall b, In b (flat_map stamps_of items) -> all_took ks -> snd b <> []).
Proof.
  intros widen conv units es cp HP e bs e2 ks HE. induction HE as [e|e b min fin e1 read k bs e2 ks EL MB L30 NB TI EE EX HE IH]; intros HR HD HO.
  - exists []. rewrite Z.sub_diag. splits; auto; try lia; try constructor; try (intros ? []).
  - inversion HD as [|? ? D1 D2]; subst. inversion HO as [|? ? O1 O2]; subst.
    destruct (calls_pairs widen conv units es (ba_calls b) HP D1 O1) as (ps & E1 & F1).
    destruct (log_all_staged widen conv units es ps (ba_mem b) (ba_at b) F1) as (m' & EL' & MM).
    rewrite E1, EL in EL'. assert (min = m' /\ fin = ba_at b + zlen (staged ps)) as [-> ->] by (split; congruence).
    destruct (pairs_squeeze widen conv units es ps F1 ltac:(lia)) as [S1 S2].
    set (xs := map (fun q => fst (snd q)) ps) in *.
    assert (LD : load m' (ba_at b) (length (concat (map am_bytes xs))) = concat (map am_bytes xs)).
    { rewrite (meq_load _ _ _ _ MM). apply load_store_same. }
    destruct HR as (R1 & R2 & R3). unfold encodeLogMsgsPre in EE.
    destruct (squeeze_with (pp_compress units) (printed_by conv ps) xs m' (ba_at b) (ba_bytes b) (ba_tid b) (ba_pass b) e e1 read k
      S1 S2 MB R1 R2 R3 TI LD ltac:(fold (staged ps); unfold staged, xs in *; lia) EE)
      as [(Z9 & -> & -> & ->)|(n & ws & Z9 & Nn & -> & SQ & RE & LX & WP & BE & EN & HI & HI2 & FR & MB' & SZ & _)].
    + destruct (IH ltac:(split; auto) D2 O2) as (items & A1 & A2 & A3 & A4 & A5 & A6 & A7 & A8).
      exists items. cbn [taken firstn map app]. splits; auto.
      * intro AT. inversion AT as [|? ? AB _]; subst. lia.
      * intros b' _ AT. inversion AT as [|? ? AB _]; subst. lia.
    + assert (SP1 : e_space e1 = e_space e - zlen (extent_bytes (ba_tid b) (ba_pass b) ws)) by (unfold e_space; lia).
      pose proof (zlen_nonneg _ (extent_bytes (ba_tid b) (ba_pass b) ws)).
      destruct (IH ltac:(split; [exact MB'|split; lia]) D2 O2) as (items & A1 & A2 & A3 & A4 & A5 & A6 & A7 & A8).
      assert (FX : firstn n xs = map (fun q => fst (snd q)) (firstn n ps)) by (unfold xs; now rewrite firstn_map).
      rewrite FX in SQ.
      destruct (pairs_lines widen conv units es cp (ba_tid b) ps F1 (firstn n ps) ws) as (ms & M1 & M2 & M3); auto.
      { intros q Hq. rewrite <- (firstn_skipn n ps). apply in_or_app. now left. }
      { rewrite <- FX. apply Forall_firstn'. exact S1. }
      assert (ST : map (fun m => w_ts (pm_w m)) ms = map ca_ts (firstn n (ba_calls b))).
      { rewrite (shows_stamps _ _ _ _ _ M3), <- E1, firstn_map. reflexivity. }
      exists (PExtent (ba_tid b) (ba_pass b) ms :: items). splits.
      * constructor; [|exact A1]. cbn [pitem_ok pitem_bytes]. rewrite M1. splits; auto; lia.
      * lia.
      * exact A3.
      * unfold pfile. cbn [map concat pitem_bytes]. fold (pfile items). rewrite M1.
        assert (LP : length (pfile items) = Z.to_nat (e_wp e2 - e_wp e1)) by (rewrite <- A4; apply load_length).
        replace (Z.to_nat (e_wp e2 - e_wp e)) with (length (extent_bytes (ba_tid b) (ba_pass b) ws ++ pfile items))
          by (rewrite app_length; unfold zlen in *; lia).
        apply load_append.
        -- rewrite <- LX at 2. apply load_ext. intros y Hy. apply A5. unfold zlen in *; lia.
        -- rewrite <- WP, LP. exact A4.
      * intros y Hy. rewrite A5 by lia. apply FR. lia.
      * cbn [taken plines]. apply Forall2_app; [|exact A6]. rewrite Nat2Z.id, <- E1, firstn_map. exact M3.
      * intro AT. inversion AT as [|? ? _ AT']; subst. cbn [flat_map stamps_of app batch_stamps]. rewrite Nat2Z.id, ST, (A7 AT'). reflexivity.
      * intros b' Hb AT. inversion AT as [|? ? AB AT']; subst. cbn [flat_map stamps_of app] in Hb. destruct Hb as [<-|Hb]; [|exact (A8 _ Hb AT')].
        cbn [snd]. rewrite ST. assert (LX9 : length xs = length (ba_calls b)) by (unfold xs; rewrite map_length, <- E1, map_length; reflexivity).
        destruct n as [|n]; [lia|]. destruct (ba_calls b) as [|c0 cs0]; [cbn [length] in LX9; lia|discriminate].
Qed.

(** ** Their order *)

(** Passes by time stamps only. *)
Fixpoint stamp_passes (l : list (bool * list Z)) : list (list Z) :=
  match l with
  | [] => [[]]
  | (np, ts) :: r => if np then ts :: stamp_passes r else match stamp_passes r with p :: ps => (ts ++ p) :: ps | [] => [] end
  end.

Lemma stamp_passes_cons : forall l, exists p ps, stamp_passes l = p :: ps.
Proof.
  induction l as [|[np ts] l (p & ps & E)]; [eexists _, _; reflexivity|]. cbn [stamp_passes]. rewrite E. destruct np; eexists _, _; reflexivity.
Qed.

Lemma passes_stamps : forall items, map (map ts) (passes (map it_of items)) = stamp_passes (flat_map stamps_of items).
Proof.
  induction items as [|[bs|tid np ms] items IH]; [reflexivity| |]; cbn [map it_of passes flat_map stamps_of app stamp_passes]; [exact IH|].
  rewrite <- IH. assert (EM : map ts (map fm ms) = map (fun m => w_ts (pm_w m)) ms) by (rewrite map_map; reflexivity).
  destruct np; cbn [map]; [now rewrite EM|]. destruct (passes (map it_of items)) as [|p ps]; [reflexivity|]. cbn [map]. now rewrite map_app, EM.
Qed.

Lemma rounds_stamps : forall bs ks, map (map ca_ts) (rounds bs ks) = stamp_passes (batch_stamps bs ks).
Proof.
  induction bs as [|b bs IH]; intros [|k ks]; try reflexivity. cbn [rounds batch_stamps stamp_passes]. rewrite <- IH.
  destruct (ba_pass b); cbn [map]; [reflexivity|].
  assert (RC : exists r rs, rounds bs ks = r :: rs).
  { destruct (stamp_passes_cons (batch_stamps bs ks)) as (p & ps & E). rewrite <- IH in E. destruct (rounds bs ks); [discriminate E|eauto]. }
  destruct RC as (r & rs & ->). cbn [map]. now rewrite map_app.
Qed.

Lemma nth_stamps : forall A B (f : A -> Z) (g : B -> Z) (l : list (list A)) (m : list (list B)) i x, map (map f) l = map (map g) m ->
  In x (nth i l []) -> exists y, In y (nth i m []) /\ f x = g y.
Proof.
  intros A B f g. induction l as [|a l IH]; intros [|b m] i x E Hx; try discriminate E; [destruct i; contradiction|].
  injection E as E1 E2. destruct i as [|i]; cbn [nth] in *; [|eapply IH; eauto].
  assert (In (f x) (map g b)) by (rewrite <- E1; apply in_map; exact Hx). apply in_map_iff in H. destruct H as (y & E & Hy). exists y. auto.
Qed.

Lemma sorted_stamps : forall A B (f : A -> Z) (g : B -> Z) (l : list A) (m : list B), map f l = map g m ->
  StronglySorted (fun x y => f x <= f y) l -> StronglySorted (fun x y => g x <= g y) m.
Proof.
  intros A B f g. induction l as [|a l IH]; intros [|b m] E H; try discriminate E; [constructor|].
  injection E as E1 E2. inversion H as [|? ? H1 H2]; subst. constructor; [now apply IH|]. apply Forall_forall. intros y Hy.
  assert (IY : In (g y) (map f l)) by (rewrite E2; now apply in_map). apply in_map_iff in IY. destruct IY as (x & EX & Hx).
  rewrite Forall_forall in H2. specialize (H2 x Hx). lia.
Qed.

Lemma firstn_sorted : forall A (R : A -> A -> Prop) n l, StronglySorted R l -> StronglySorted R (firstn n l).
Proof.
  intros A R. induction n as [|n IH]; intros [|a l] H; cbn [firstn]; try constructor; inversion H as [|? ? H1 H2]; subst; auto.
  apply Forall_forall. intros x Hx. rewrite Forall_forall in H2. apply H2. rewrite <- (firstn_skipn n l). apply in_or_app. now left.
Qed.

Lemma batch_in : forall bs ks np tsl, batches_sorted bs -> In (np, tsl) (batch_stamps bs ks) ->
  exists cs, tsl = map ca_ts cs /\ StronglySorted (fun x y => ca_ts x <= ca_ts y) cs.
Proof.
  induction bs as [|b bs IH]; intros [|k ks] np tsl H HI; try contradiction HI. inversion H as [|? ? H1 H2]; subst.
  destruct HI as [E|HI]; [|eapply IH; eauto]. injection E as _ <-. eexists. split; [reflexivity|]. now apply firstn_sorted.
Qed.

Lemma extents_in : forall items tid np ms, In (IExtent tid np ms) (map it_of items) ->
  In (np, map ts ms) (flat_map stamps_of items).
Proof.
  intros items tid np ms H. apply in_map_iff in H. destruct H as (p & E & Hp). destruct p as [bs|tid' np' ms']; [discriminate E|].
  injection E as <- <- <-. apply in_flat_map. eexists. split; [exact Hp|]. cbn [stamps_of]. left. f_equal. rewrite map_map. reflexivity.
Qed.

(** ** C76 for programs and messages within the limits of C48 and C49; in order
    where every call of the encoder took a message. *)
Theorem C76_partial : forall widen conv pick units es e rdtsc unix cps e1 bs e2 ks pad lim,
  heap_front pick ->
  program_dict units = Some es -> Forall (fun s => 0 <= st_line s < 2 ^ 31) (concat units) ->
  enc_ready e -> 0 <= rdtsc < 2 ^ 64 -> 0 <= unix < 2 ^ 64 -> length cps = 8%nat -> Forall is_byte cps ->
  insertCheckpointDict e rdtsc unix cps es = (e1, true) ->
  Forall (fun b => Forall (call_defined widen conv units) (ba_calls b)) bs ->
  encoded widen units e1 bs e2 ks -> Forall pad_byte pad -> e_wp e2 - e_wp e <= lim ->
  program_ok units es -> Forall (fun b => Forall call_ok (ba_calls b)) bs ->
  forall m0, exists d,
    md_open_file lim (new_mdecoder m0) (load (e_mem e2) (e_wp e) (Z.to_nat (e_wp e2 - e_wp e)) ++ pad) = Some (d, true) /\
    reads_each lim conv d (Checkpoint rdtsc unix cps) units (taken bs ks) /\
    reads_ordered lim conv pick d (Checkpoint rdtsc unix cps) units (taken bs ks)
      (batches_sorted bs /\ nearly_in_order (rounds bs ks) /\ all_took ks).
Proof.
  intros widen conv pick units es e rdtsc unix cps e1 bs e2 ks pad lim HPk HPd HLn (Hm & He & Hsp) Hr Hu Hc Hb E HD HE Hpad Hlim HP HO m0.
  pose proof HP as (_ & _ & HF & _ & _ & HS).
  destruct (C49_written e rdtsc unix cps es e1 true Hm He Hr Hu Hc Hb HF HS E) as (_ & _ & EN & HI & _ & MB & _ & C).
  destruct (C eq_refl) as (WP & junk & D & DM & OK & LD).
  pose proof (bare_size es D DM) as SZ. pose proof (zlen_nonneg _ (metas_bytes D)).
  set (cp := Checkpoint rdtsc unix cps) in *.
  destruct (encoded_items widen conv units es cp HP e1 bs e2 ks HE) as (items & A1 & A2 & A3 & A4 & A5 & A6 & A7 & A8); auto.
  { split; [exact MB|]. split; [exact HI|]. unfold e_space in *. lia. }
  set (all := items ++ [PPad pad]).
  assert (AOK : Forall (pitem_ok conv (map fst D)) all).
  { rewrite DM. apply Forall_app. split; [exact A1|]. constructor; [exact Hpad|constructor]. }
  destruct (pre_read lim conv pick m0 junk cp D all [] HPk OK ltac:(lia) AOK (or_introl eq_refl)) as (d & O1 & (d' & evs & I1 & I2 & I3) & (d'' & evs' & P1 & P2 & P3)). rewrite app_nil_r in O1.
  assert (PL : plines cp all = plines cp items) by (unfold all; rewrite plines_app; cbn [plines]; apply app_nil_r).
  rewrite PL in *.
  assert (NM : zlen (messages (plines cp items)) = zlen (taken bs ks)).
  { rewrite (shows_messages _ _ _ _ A6). clear - A6. induction A6; [reflexivity|]. rewrite !zlen_cons. lia. }
  assert (BY : load (e_mem e2) (e_wp e) (Z.to_nat (e_wp e2 - e_wp e)) ++ pad = execution_bytes junk cp D ++ pfile all).
  { unfold all. rewrite pfile_app. unfold pfile at 2. cbn [map concat pitem_bytes]. rewrite app_nil_r, app_assoc. f_equal.
    set (size := 33 + zlen (metas_bytes (GenDict.bare es))) in *.
    assert (LX : length (execution_bytes junk cp D) = Z.to_nat size) by (rewrite <- LD; apply load_length).
    assert (LP : length (pfile items) = Z.to_nat (e_wp e2 - e_wp e1)) by (rewrite <- A4; apply load_length).
    replace (Z.to_nat (e_wp e2 - e_wp e)) with (length (execution_bytes junk cp D ++ pfile items)) by (rewrite app_length; lia).
    apply load_append.
    - rewrite LX. rewrite <- LD. apply load_ext. intros y Hy. apply A5. lia.
    - replace (zlen (execution_bytes junk cp D)) with size by (unfold zlen in *; lia). rewrite <- WP, LP. exact A4. }
  exists d. rewrite BY. split; [exact O1|]. split.
  - exists d', evs. assert (LN : length (messages (plines cp items)) = length (taken bs ks)) by (unfold zlen in NM; lia).
    rewrite <- LN. split; [exact I1|]. split; [lia|]. rewrite I2. exact A6.
  - exists d'', evs', (plines cp items).
    assert (NP : zlen (messages (map line_of evs')) = zlen (taken bs ks)).
    { rewrite <- NM. unfold messages, zlen. f_equal. apply Permutation_length. clear - P2.
      induction P2; cbn [map concat]; auto; [now apply Permutation_app_head|rewrite !app_assoc; apply Permutation_app_tail, Permutation_app_comm|eapply perm_trans; eauto]. }
    rewrite <- NP. split; [exact P1|]. split; [exact P2|]. split; [exact A6|]. intros (B1 & B2 & B3).
    specialize (A7 B3).
    assert (FA : flat_map stamps_of all = flat_map stamps_of items) by (unfold all; rewrite flat_map_app; cbn [flat_map stamps_of app]; apply app_nil_r).
    assert (PE : map (map ts) (passes (map it_of all)) = map (map ca_ts) (rounds bs ks)) by (rewrite passes_stamps, rounds_stamps, FA, A7; reflexivity).
    apply P3.
    + intros tid np ms HIn. apply extents_in in HIn. rewrite FA, A7 in HIn. destruct (batch_in _ _ _ _ B1 HIn) as (cs & EC & SC).
      eapply (sorted_stamps call fmsg ca_ts ts); [symmetry; exact EC|exact SC].
    + intros i j x y Hij Hx Hy. destruct (nth_stamps _ _ ts ca_ts _ _ i x PE Hx) as (x' & Hx' & EX).
      destruct (nth_stamps _ _ ts ca_ts _ _ j y PE Hy) as (y' & Hy' & EY). unfold ts in EX, EY. rewrite EX, EY. exact (B2 i j x' y' Hij Hx' Hy').
    + intros tid np ms HIn EM. subst ms. apply extents_in in HIn. rewrite FA in HIn. exact (A8 _ HIn B3 eq_refl).
Qed.
Print Assumptions C76_partial.

(** The file of C61_refuted cannot be opened. *)
Theorem C76_refuted : ~ C76_full.
Proof.
  intro F. destruct (program_dict w_escape) as [es|] eqn:E; [|vm_compute in E; discriminate E].
  destruct (insertCheckpointDict (enc_demo 200) 1000 1700000000 cps_demo es) as [e1 ok] eqn:EI.
  assert (EE : forall es', Some es' = program_dict w_escape -> snd (insertCheckpointDict (enc_demo 200) 1000 1700000000 cps_demo es') = true /\
    match md_open_file 4096 (new_mdecoder (fun _ => 0)) (load (e_mem (fst (insertCheckpointDict (enc_demo 200) 1000 1700000000 cps_demo es'))) 0
      (Z.to_nat (e_wp (fst (insertCheckpointDict (enc_demo 200) 1000 1700000000 cps_demo es')) - 0)) ++ []) with Some (_, b) => b = false | None => True end /\
    e_wp (fst (insertCheckpointDict (enc_demo 200) 1000 1700000000 cps_demo es')) - 0 <= 4096).
  { intros es' E'. vm_compute in E'. apply some_inj in E'. subst es'. split; [vm_compute; reflexivity|]. split; [vm_compute; exact eq_refl|vm_compute; discriminate]. }
  destruct (EE es (eq_sym E)) as (Q1 & Q2 & Q3). rewrite EI in Q1, Q2, Q3. cbn [fst snd] in Q1, Q2, Q3. subst ok.
  destruct (F widen0 showw pick_first w_escape es (enc_demo 200) 1000 1700000000 cps_demo e1 [] e1 [] [] 4096) with (m0 := fun _ : Z => 0)
    as (d & O & _); auto.
  - exact pick_first_heap.
  - repeat constructor; cbn [st_line]; lia.
  - split; [apply demo_bytes|]. unfold e_space. cbn [enc_demo e_wp e_hi e_end]. lia.
  - lia.
  - lia.
  - exact cps_bytes.
  - constructor.
  - change (e_wp (enc_demo 200)) with 0 in O. rewrite O in Q2. discriminate Q2.
Qed.
Print Assumptions C76_refuted.

(** ** Examples *)

(** Two threads' batches in three rounds, read in the three ways: time stamps and texts. *)
Definition calls76 (t1 t2 : Z) : list call :=
  [Call s_lost q_lost (st_fmt s_lost) [AInt (Ity false 1) 200] t1 (chars "lost " ++ [200] ++ chars "%");
   Call s_lost q_lost (st_fmt s_lost) [AInt (Ity false 1) 7] t2 (chars "lost " ++ [7] ++ chars "%")].

Definition put76 (x : enc * list Z) (b : Z * bool * list call) : option (enc * list Z) :=
  let '(e, ks) := x in let '(tid, np, cs) := b in
  match pp_log_all widen0 u49 (fun _ => 0) 1000 (map triple cs) with
  | None => None
  | Some (min, fin) => let '(e', _, k) := encodeLogMsgsPre u49 e min 1000 (fin - 1000) tid np in Some (e', ks ++ [k])
  end.

Fixpoint puts76 (x : enc * list Z) (bs : list (Z * bool * list call)) : option (enc * list Z) :=
  match bs with [] => Some x | b :: r => match put76 x b with None => None | Some x' => puts76 x' r end end.

Definition stamps (evs : list event) : list (Z * Z) := map (fun s => (sh_tid s, sh_ts s)) (messages (map line_of evs)).

Definition three_ways (bs : list (Z * bool * list call)) : option (list Z * list (Z * Z) * (bool * list (Z * Z)) * list (Z * Z)) :=
  match program_dict u49 with
  | None => None
  | Some es =>
    match puts76 (fst (insertCheckpointDict (enc_demo 600) 1000 1700000000 cps_demo es), []) bs with
    | None => None
    | Some (e2, ks) =>
      match md_open_file 4096 (new_mdecoder (fun _ => 0)) (load (e_mem e2) 0 (Z.to_nat (e_wp e2)) ++ [0; 0]) with
      | Some (d, true) =>
        match m_decompressUnordered 4096 showw d, m_iterate 4096 showw 9 d, m_decompressTo 4096 showw pick_first d with
        | Some (_, e1, _), Some (_, e2, r), Some (_, e3, _) => Some (ks, stamps e1, (r, stamps e2), stamps e3)
        | _, _, _ => None
        end
      | _ => None
      end
    end
  end.

Example C76_three_ways : three_ways [(1, false, calls76 10 40); (2, true, calls76 20 30); (1, true, calls76 45 70); (2, true, calls76 41 50)] =
  Some ([2; 2; 2; 2],
    [(1, 10); (1, 40); (2, 20); (2, 30); (1, 45); (1, 70); (2, 41); (2, 50)],
    (false, [(1, 10); (1, 40); (2, 20); (2, 30); (1, 45); (1, 70); (2, 41); (2, 50)]),
    [(1, 10); (2, 20); (2, 30); (1, 40); (2, 41); (1, 45); (2, 50); (1, 70)]).
Proof. vm_compute. reflexivity. Qed.

(** The conditions on the order are met by such batches, and not by any. *)
Definition batches76 : list batch :=
  map (fun x : Z * bool * list call => Batch (fun _ => 0) 1000 (snd x) (fst (fst x)) (snd (fst x)) 50)
    [(1, false, calls76 10 40); (2, true, calls76 20 30); (1, true, calls76 45 70); (2, true, calls76 41 50)].
Example C76_conditions : batches_sorted batches76 /\ all_took [2; 2; 2; 2] /\ nearly_in_order (rounds batches76 [2; 2; 2; 2]) /\
  map (map ca_ts) (rounds batches76 [2; 2; 2; 2]) = [[10; 40; 20; 30]; [45; 70]; [41; 50]; []].
Proof.
  assert (E : map (map ca_ts) (rounds batches76 [2; 2; 2; 2]) = [[10; 40; 20; 30]; [45; 70]; [41; 50]; []]) by reflexivity.
  splits.
  - repeat constructor; cbn [ca_ts]; lia.
  - repeat constructor.
  - intros i j x y Hij Hx Hy.
    destruct (nth_stamps _ _ ca_ts (fun z : Z => z) _ [[10; 40; 20; 30]; [45; 70]; [41; 50]; []] i x E Hx) as (a & Ha & ->).
    destruct (nth_stamps _ _ ca_ts (fun z : Z => z) _ [[10; 40; 20; 30]; [45; 70]; [41; 50]; []] j y E Hy) as (b & Hb & ->).
    destruct (Nat.lt_ge_cases j 4) as [J|J]; [|rewrite nth_overflow in Hb by exact J; contradiction].
    destruct j as [|[|[|[|j]]]]; try lia; cbn [nth] in Hb; [|contradiction].
    destruct i as [|i]; [|lia]. cbn [nth] in Ha.
    repeat (destruct Ha as [<-|Ha]; [repeat (destruct Hb as [<-|Hb]; [lia|]); contradiction|]); contradiction.
  - exact E.
Qed.
