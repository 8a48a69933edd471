(** The decompressor with its dictionary in memory does what the one with a list
    of micro codes does. *)
From Verif Require Import Base BaseProofs Packer PackerProofs LogHeader LogHeaderProofs Chars Fmt Regex MicroCode Args Printf Decode DecodeProofs
  Encoder Wire EncoderProofs Decoder FileSpec DecoderProofs Ordered OrderedProofs MetaDict Prop_MetaDict PreprocLit MicroMem MicroMemProofs MemDecoder.

(** ** The dictionary in memory *)

(** The entries of [dict] lie at [ats]; one without micro code has the position
    of the next. *)
Fixpoint tracked (m : mem) (e : Z) (ats : list Z) (dict : list dentry) : Prop :=
  match ats, dict with
  | [], [] => True
  | p :: ats', d :: dict' =>
      0 <= p <= e /\ tracked m e ats' dict' /\
      match de_mc d with
      | Some mc => meta_wf (visible mc) /\ exists js, at_ m p (meta_bytes (visible mc, js)) /\ p + zlen (meta_bytes (visible mc, js)) <= e
      | None => p = hd e ats'
      end
  | _, _ => False
  end.

Definition tracks (lim : Z) (st : metas) (dict : list dentry) : Prop :=
  0 <= ms_end st <= lim /\ tracked (ms_mem st) (ms_end st) (ms_at st) dict /\ ms_fmts st = map de_fmt dict.

Lemma tracked_find : forall lim m e ats dict i mc, tracked m e ats dict -> e <= lim -> metadata_at dict i = Some mc ->
  exists p, nth_error ats i = Some p /\ microcode_at lim m p = Some (visible mc).
Proof.
  intros lim m e ats dict i mc H L. revert ats i H. induction dict as [|d dict IH]; intros [|p ats] i H E; try contradiction; try discriminate E.
  cbn [tracked] in H. destruct H as (H0 & H1 & H2). cbn [metadata_at] in E. destruct i as [|i]; [|exact (IH ats i H1 E)].
  exists p. split; [reflexivity|]. destruct (de_mc d) as [mc'|].
  - injection E as <-. destruct H2 as (W & js & A & B). apply (meta_read (visible mc', js)); auto. lia.
  - destruct (IH ats 0%nat H1 E) as (q & A & B). destruct ats as [|q' ats]; [discriminate A|]. cbn [nth_error] in A. injection A as ->.
    cbn [hd] in H2. now subst.
Qed.

Lemma tracks_find : forall lim st dict id mc, tracks lim st dict -> metadata_at dict (Z.to_nat id) = Some mc ->
  metadata_of lim st id = Some (visible mc).
Proof.
  intros lim st dict id mc (T1 & T2 & _) E. unfold metadata_of.
  destruct (tracked_find lim _ _ _ _ _ _ T2 ltac:(lia) E) as (p & -> & ->). reflexivity.
Qed.

(** Adding an entry at the end. *)
Lemma tracked_add : forall m m' e e' b ats dict d, tracked m e ats dict -> apart m m' e b -> 0 <= e <= e' ->
  match de_mc d with
  | Some mc => meta_wf (visible mc) /\ exists js, at_ m' e (meta_bytes (visible mc, js)) /\ e + zlen (meta_bytes (visible mc, js)) <= e'
  | None => e' = e
  end -> tracked m' e' (ats ++ [e]) (dict ++ [d]).
Proof.
  intros m m' e e' b ats dict d H K L D. revert dict H. induction ats as [|p ats IH]; intros [|d0 dict] H; try contradiction.
  - cbn [app tracked hd]. splits; auto; try lia. destruct (de_mc d); auto.
  - cbn [app tracked] in *. destruct H as (H0 & H1 & H2). splits; auto; try lia.
    destruct (de_mc d0) as [mc|].
    + destruct H2 as (W & js & A & B). split; auto. exists js. split; [|lia]. eapply at_keep; [exact A|exact K|lia].
    + destruct ats as [|q ats]; cbn [app hd] in *; auto.
Qed.

Lemma cstring_props : forall b s, cstring b = Some s -> Forall is_byte b -> Forall nonzero_byte s /\ zlen s + 1 <= zlen b.
Proof.
  induction b as [|c b IH]; intros s H B; [discriminate H|]. cbn [cstring] in H. inversion B as [|? ? B1 B2]; subst.
  destruct (c =? 0) eqn:E.
  - injection H as <-. split; [constructor|]. rewrite zlen_cons. pose proof (zlen_nonneg _ b). change (zlen (@nil Z)) with 0. lia.
  - destruct (cstring b) as [s'|]; [|discriminate H]. injection H as <-. destruct (IH s' eq_refl B2) as [I1 I2].
    split; [constructor; auto; unfold nonzero_byte, is_byte in *; lia|]. rewrite !zlen_cons. lia.
Qed.

Lemma fread_split : forall n f g f', fread n f = (g, f') -> f_rest f = g ++ f_rest f'.
Proof. intros n f g f' H. unfold fread in H. injection H as <- <-. cbn [f_rest]. now rewrite firstn_skipn. Qed.

Lemma slice_bytes : forall a n l, Forall is_byte l -> Forall is_byte (slice a n l).
Proof.
  intros a n l H. unfold slice. apply Forall_first. rewrite <- (firstn_skipn (Z.to_nat a) l) in H. apply Forall_app in H. tauto.
Qed.

Lemma slice_val : forall a n l, Forall is_byte l -> 0 <= a -> 0 <= n -> a + n <= zlen l -> 0 <= le_val (slice a n l) < 256 ^ n.
Proof.
  intros a n l H Ha Hn L. pose proof (le_val_bound _ (slice_bytes a n l H)) as B.
  replace (zlen (slice a n l)) with n in B; auto. unfold slice, zlen in *. rewrite firstn_length, skipn_length. lia.
Qed.

Lemma fragment_shrinks : forall fuel br total f dict f' dict' ok, dict_fragment_loop fuel br total f dict = Some (f', dict', ok) ->
  exists pre, f_rest f = pre ++ f_rest f'.
Proof.
  induction fuel as [|fuel IH]; intros br total f dict f' dict' ok H; [discriminate H|]. cbn [dict_fragment_loop] in H.
  destruct (negb _); [injection H as <- _ _; exists []; reflexivity|].
  destruct (fread 9 f) as [cli f1] eqn:F1. apply fread_split in F1.
  destruct (zlen cli <? 9); [injection H as <- _ _; eexists; exact F1|].
  destruct (fread _ f1) as [fb f2] eqn:F2. apply fread_split in F2. destruct (fread _ f2) as [sb f3] eqn:F3. apply fread_split in F3.
  rewrite F1, F2, F3. destruct (negb _); [injection H as <- _ _; exists (cli ++ fb ++ sb); now rewrite <- !app_assoc|].
  destruct (cstring fb), (cstring sb); try discriminate H. destruct (IH _ _ _ _ _ _ _ H) as (pre & ->).
  exists (cli ++ fb ++ sb ++ pre). now rewrite <- !app_assoc.
Qed.

(** [pre] was read from [f], leaving [f']. *)
Definition consumed (f f' : file) (pre : list Z) : Prop := f_rest f = pre ++ f_rest f'.

Lemma consumed_zlen : forall f f' pre, consumed f f' pre -> zlen pre = zlen (f_rest f) - zlen (f_rest f').
Proof. intros f f' pre H. unfold consumed in H. rewrite H, zlen_app. lia. Qed.

Lemma fragment_loop_sim : forall lim fuel br total f dict st f' dict' ok pre, consumed f f' pre -> Forall is_byte pre -> tracks lim st dict ->
  dict_fragment_loop fuel br total f dict = Some (f', dict', ok) ->
  ms_end st + 3 * zlen pre <= lim ->
  exists st', fragment_loop fuel lim br total f st = Some (f', st', ok) /\ tracks lim st' dict' /\
    ms_end st <= ms_end st' <= ms_end st + 3 * zlen pre.
Proof.
  intros lim. induction fuel as [|fuel IH]; intros br total f dict st f' dict' ok pre C B T H L; [discriminate H|].
  pose proof (zlen_nonneg _ pre) as Zp.
  cbn [dict_fragment_loop] in H. cbn [fragment_loop].
  destruct (negb _). { injection H as <- <- <-. exists st. splits; auto; lia. }
  destruct (fread 9 f) as [cli f1] eqn:F1. apply fread_split in F1.
  destruct (zlen cli <? 9) eqn:E9. { injection H as <- <- <-. exists st. splits; auto; lia. }
  cbv zeta in *.
  set (fl := le_val (slice 5 2 cli)) in *. set (sl := le_val (slice 7 2 cli)) in *.
  set (ln := le_val (slice 1 4 cli)) in *. set (sv := le_val (slice 0 1 cli)) in *.
  destruct (fread fl f1) as [fb f2] eqn:F2. pose proof F2 as F2'. apply fread_split in F2.
  destruct (fread sl f2) as [sb f3] eqn:F3. pose proof F3 as F3'. apply fread_split in F3.
  destruct (negb _) eqn:EN. { injection H as <- <- <-. exists st. splits; auto; lia. }
  destruct (cstring fb) as [fn|] eqn:C1; [|discriminate H]. destruct (cstring sb) as [fmt|] eqn:C2; [|discriminate H].
  destruct (fragment_shrinks _ _ _ _ _ _ _ _ H) as (pre' & ES).
  assert (EP : pre = cli ++ fb ++ sb ++ pre').
  { unfold consumed in C. rewrite F1, F2, F3, ES, !app_assoc in C. apply app_inv_tail in C. now rewrite <- C, <- !app_assoc. }
  rewrite EP in B. apply Forall_app in B. destruct B as [Bc B]. apply Forall_app in B. destruct B as [Bf B]. apply Forall_app in B. destruct B as [Bs B].
  pose proof (slice_val 5 2 cli Bc ltac:(lia) ltac:(lia) ltac:(lia)) as V5. pose proof (slice_val 7 2 cli Bc ltac:(lia) ltac:(lia) ltac:(lia)) as V7.
  pose proof (slice_val 1 4 cli Bc ltac:(lia) ltac:(lia) ltac:(lia)) as V1. pose proof (slice_val 0 1 cli Bc ltac:(lia) ltac:(lia) ltac:(lia)) as V0.
  fold fl in V5. fold sl in V7. fold ln in V1. fold sv in V0.
  assert (Lb : zlen fb <= fl). { unfold fread in F2'. injection F2' as <- _. unfold zlen. rewrite firstn_length. lia. }
  assert (Ls : zlen sb <= sl). { unfold fread in F3'. injection F3' as <- _. unfold zlen. rewrite firstn_length. lia. }
  pose proof (zlen_nonneg _ cli). pose proof (zlen_nonneg _ fb). pose proof (zlen_nonneg _ sb). pose proof (zlen_nonneg _ pre').
  assert (ZR : zlen pre = zlen cli + zlen fb + zlen sb + zlen pre') by (rewrite EP, !zlen_app; lia).
  destruct (cstring_props _ _ C1 Bf) as [N1 M1]. destruct (cstring_props _ _ C2 Bs) as [N2 M2].
  pose proof (zlen_nonneg _ fn). pose proof (zlen_nonneg _ fmt).
  destruct T as (T1 & T2 & T3).
  destruct (create_spec lim (ms_mem st) (ms_end st) fmt fn ln sv N2 ltac:(lia) N1 ltac:(lia) ltac:(lia) ltac:(lia) ltac:(lia) ltac:(unfold room; lia))
    as (m' & e & okm & CR & AP & SP).
  rewrite CR. set (d := DEntry fmt (createMicroCode fmt fn ln sv)) in *.
  assert (EE : ms_end st <= e <= ms_end st + room fn fmt /\
    match de_mc d with
    | Some mc => meta_wf (visible mc) /\ exists js, at_ m' (ms_end st) (meta_bytes (visible mc, js)) /\ ms_end st + zlen (meta_bytes (visible mc, js)) <= e
    | None => e = ms_end st
    end).
  { unfold d. cbn [de_mc]. destruct (createMicroCode fmt fn ln sv) as [mc|].
    - destruct SP as (_ & S1 & S2 & S3). auto.
    - destruct SP as (_ & ->). unfold room. splits; auto; lia. }
  destruct EE as [EB EM]. unfold room in EB.
  destruct (IH (br + (9 + zlen fb + zlen sb)) total f3 (dict ++ [d]) (Metas m' e (ms_at st ++ [ms_end st]) (ms_fmts st ++ [fmt])) f' dict' ok pre' ES B)
    as (st' & R1 & R2 & R3); auto.
  - unfold tracks. cbn [ms_mem ms_end ms_at ms_fmts]. splits; try lia.
    + eapply tracked_add; [exact T2|exact AP|lia|exact EM].
    + now rewrite T3, map_app.
  - cbn [ms_end]. lia.
  - exists st'. cbn [ms_end] in R3. splits; auto; lia.
Qed.

Lemma fragment_sim : forall lim f dict st f' dict' ok pre, consumed f f' pre -> Forall is_byte pre -> tracks lim st dict ->
  readDictionaryFragment f dict = Some (f', dict', ok) ->
  ms_end st + 3 * zlen pre <= lim ->
  exists st', read_fragment lim f st = Some (f', st', ok) /\ tracks lim st' dict' /\
    ms_end st <= ms_end st' <= ms_end st + 3 * zlen pre.
Proof.
  intros lim f dict st f' dict' ok pre C B T H L. unfold readDictionaryFragment in H. unfold read_fragment.
  pose proof (zlen_nonneg _ pre) as Zp.
  destruct (fread 8 f) as [df f1] eqn:F1. apply fread_split in F1.
  destruct (zlen df <? 8). { injection H as <- <- <-. exists st. splits; auto; lia. }
  destruct (negb _); [discriminate H|]. destruct (fragment_shrinks _ _ _ _ _ _ _ _ H) as (pre' & ES).
  assert (EP : pre = df ++ pre').
  { unfold consumed in C. rewrite F1, ES, app_assoc in C. apply app_inv_tail in C. now rewrite <- C. }
  rewrite EP in B. apply Forall_app in B. destruct B as [_ B].
  pose proof (zlen_nonneg _ df). assert (ZR : zlen pre = zlen df + zlen pre') by (rewrite EP, zlen_app; lia).
  destruct (fragment_loop_sim lim _ _ _ _ _ st _ _ _ pre' ES B T H) as (st' & R1 & R2 & R3); [lia|].
  exists st'. splits; auto; lia.
Qed.

Lemma checkpoint_sim : forall lim cp st dict f f' cp' dict' ok, tracks lim st dict ->
  readDictionary cp dict f = Some (f', cp', dict', ok) ->
  exists st', read_dictionary lim true cp st f = Some (f', cp', st', ok) /\ tracks lim st' dict' /\
    (ok = true -> ms_end st' = 0).
Proof.
  intros lim cp st dict f f' cp' dict' ok (T1 & T2 & T3) H. unfold readDictionary in H. unfold read_dictionary.
  destruct (fread 33 f) as [b f1]. destruct (zlen b <? 33).
  { injection H as <- <- <- <-. exists st. splits; try discriminate; auto. unfold tracks. auto. }
  destruct (negb _); [discriminate H|]. cbv zeta in *.
  destruct (le_val (slice 25 4 b) =? 0) eqn:E0; [|discriminate H]. cbn [negb] in H.
  injection H as <- <- <- <-. apply Z.eqb_eq in E0. rewrite E0.
  unfold fread. cbn [Z.to_nat firstn skipn]. change (zlen (@nil Z)) with 0. change (0 <? 0) with false. rewrite orb_false_r.
  replace (lim <? ms_end st + 0) with false by lia. cbn [negb Z.eqb ms_end]. cbn [index_loop length ms_end ms_mem].
  change (0 <? 0 + 0) with false. cbv iota. cbn [ms_end ms_at].
  change (0 =? 0 + 0) with true. change (zlen (@nil Z)) with 0. cbn [andb].
  eexists. split; [|split].
  - rewrite (Z.eqb_sym 0). destruct f1; reflexivity.
  - unfold tracks. cbn [ms_mem ms_end ms_at ms_fmts tracked map]. splits; auto; lia.
  - reflexivity.
Qed.

(** ** Decompressing *)

Lemma next_sim : forall lim conv st dict b r, tracks lim st dict -> decompressNext conv dict b = Some r -> m_decompressNext lim conv st b = Some r.
Proof.
  intros lim conv st dict b r T H. unfold decompressNext in H. unfold m_decompressNext.
  destruct (_ || _); [exact H|]. destruct (metadata_at dict _) as [mc|] eqn:E; [|discriminate H].
  rewrite (tracks_find _ _ _ _ _ T E), print_visible. exact H.
Qed.

Lemma drain_sim : forall lim conv st dict fuel cp b r, tracks lim st dict -> drain_fragment conv fuel cp dict b = Some r ->
  m_drain_fragment lim conv fuel cp st b = Some r.
Proof.
  intros lim conv st dict fuel cp b r T. revert b r. induction fuel as [|fuel IH]; intros b r H; [discriminate H|].
  cbn [drain_fragment] in H. cbn [m_drain_fragment]. destruct (bf_more b); [|exact H].
  destruct (decompressNext conv dict b) as [[b' o]|] eqn:E; [|discriminate H]. rewrite (next_sim _ _ _ _ _ _ T E).
  destruct (drain_fragment conv fuel cp dict b') as [[b'' evs]|] eqn:E2; [|discriminate H]. rewrite (IH _ _ E2). exact H.
Qed.

(** [P bs e]: with [bs] left to read and [e] bytes of rawMetadata in use, what
    comes fits. *)
Definition kind (bs : list Z) : Z := match bs with [] => ET_INVALID | b :: _ => entryType b end.

Definition fits (lim : Z) (P : list Z -> Z -> Prop) : Prop :=
  (forall bs e dict f dict' ok, P bs e -> kind bs = ET_LOG_MSGS_OR_DIC -> readDictionaryFragment (File bs false) dict = Some (f, dict', ok) ->
     exists pre, consumed (File bs false) f pre /\ Forall is_byte pre /\ e + 3 * zlen pre <= lim /\
       (ok = true -> forall e', e <= e' <= e + 3 * zlen pre -> P (f_rest f) e')) /\
  (forall bs e cp dict f cp' dict', P bs e -> kind bs = ET_CHECKPOINT -> readDictionary cp dict (File bs false) = Some (f, cp', dict', true) ->
     P (f_rest f) 0) /\
  (forall bs e b f b' ok w, P bs e -> kind bs = ET_BUFFER_EXTENT -> readBufferExtent (File bs false) b = Some (f, b', ok, w) -> P (f_rest f) e) /\
  (forall bs e, P bs e -> kind bs = ET_INVALID -> P (f_rest (skip_padding (S (length bs)) (File bs false))) e).

(** The decoder [d] with the dictionary in memory [st]. *)
Definition with_memory (d : decoder) (st : metas) : mdecoder :=
  MDecoder (d_open d) (d_file d) (d_printed d) (d_bf d) (d_good d) (d_cp d) (d_free d) st.

Definition same (lim : Z) (P : list Z -> Z -> Prop) (d : decoder) (st : metas) : Prop :=
  tracks lim st (d_dict d) /\ (d_good d = true -> P (f_rest (d_file d)) (ms_end st)).

Lemma peek_cases : forall f t f', peekEntryType f = (t, f') ->
  t = kind (f_rest f) /\ f_rest f' = f_rest f /\ (f_rest f = [] /\ f' = File [] true \/ f' = File (f_rest f) false).
Proof.
  intros f t f' H. unfold peekEntryType in H. unfold kind. destruct (f_rest f) as [|b r]; injection H as <- <-; cbn [f_rest]; auto.
Qed.

Lemma kind_four : forall bs, kind bs <> ET_BUFFER_EXTENT -> kind bs <> ET_CHECKPOINT -> kind bs <> ET_LOG_MSGS_OR_DIC -> kind bs = ET_INVALID.
Proof.
  intros [|b r] H1 H2 H3; [reflexivity|]. cbn [kind] in *. unfold entryType, bf_get in *. change (2 ^ 2) with 4 in *.
  unfold ET_INVALID, ET_BUFFER_EXTENT, ET_CHECKPOINT, ET_LOG_MSGS_OR_DIC in *. lia.
Qed.


Ltac fields d st :=
  change (md_open (with_memory d st)) with (d_open d); change (md_file (with_memory d st)) with (d_file d);
  change (md_printed (with_memory d st)) with (d_printed d); change (md_bf (with_memory d st)) with (d_bf d);
  change (md_good (with_memory d st)) with (d_good d); change (md_cp (with_memory d st)) with (d_cp d);
  change (md_free (with_memory d st)) with (d_free d); change (md_st (with_memory d st)) with st.

Lemma deplete_mono : forall A E (key : A -> Z) (n1 n2 : A -> option (A * bool * list E)) pick,
  (forall b r, n1 b = Some r -> n2 b = Some r) ->
  forall fuel k must st n freed r, deplete key n1 pick fuel k must st n freed = Some r -> deplete key n2 pick fuel k must st n freed = Some r.
Proof.
  intros A E key n1 n2 pick HN. induction fuel as [|fuel IH]; intros k must st n freed r H; [discriminate H|].
  cbn [deplete] in *. destruct (min_stage 0 None _) as [i|]; [|exact H]. cbv zeta in *.
  destruct (nth_error _ _) as [b|]; [|exact H]. destruct (n1 b) as [[[b' more] evs]|] eqn:EN; [|discriminate H]. rewrite (HN _ _ EN).
  set (st1 := set_nth _ _ _) in *. set (fr1 := if more then freed else b' :: freed) in *.
  destruct st1 as [|[|x l] rest] eqn:ES.
  - destruct (deplete key n1 pick fuel (S k) must [] n fr1) as [q|] eqn:ED; [|discriminate H]. now rewrite (IH _ _ _ _ _ _ ED).
  - destruct must; [|exact H]. destruct (deplete key n1 pick fuel (S k) true _ _ fr1) as [q|] eqn:ED; [|discriminate H]. now rewrite (IH _ _ _ _ _ _ ED).
  - destruct (deplete key n1 pick fuel (S k) must _ n fr1) as [q|] eqn:ED; [|discriminate H]. now rewrite (IH _ _ _ _ _ _ ED).
Qed.

Lemma unordered_sim : forall lim conv P, fits lim P -> forall fuel d st b d' b' evs, same lim P d st ->
  unordered_loop conv fuel d b = Some (d', b', evs) ->
  exists st', m_unordered_loop lim conv fuel (with_memory d st) b = Some (with_memory d' st', b', evs) /\ same lim P d' st'.
Proof.
  intros lim conv P (FF & FC & FE & FP). induction fuel as [|fuel IH]; intros d st b d' b' evs (T & G) H; [discriminate H|].
  cbn [unordered_loop] in H. cbn [m_unordered_loop]. unfold with_memory at 1 2. cbn [md_file md_good].
  destruct (f_eof (d_file d) || negb (d_good d)) eqn:E0. { injection H as <- <- <-. exists st. split; [reflexivity|]. split; auto. }
  assert (GD : d_good d = true) by (destruct (d_good d); auto; rewrite orb_true_r in E0; discriminate E0).
  specialize (G GD). unfold with_memory at 1. cbn [md_file].
  destruct (peekEntryType (d_file d)) as [t f] eqn:EP. apply peek_cases in EP. destruct EP as (-> & ER & EC).
  cbv zeta in *. unfold with_memory. cbn [md_open md_file md_printed md_bf md_good md_cp md_free md_st].
  destruct (kind _ =? ET_BUFFER_EXTENT) eqn:K1; [apply Z.eqb_eq in K1|apply Z.eqb_neq in K1].
  - assert (FR : f = File (f_rest (d_file d)) false) by (destruct EC as [[EC _]|EC]; [rewrite EC in K1; discriminate K1|exact EC]).
    destruct (readBufferExtent f b) as [[[[f' b1] ok] w]|] eqn:RB; [|discriminate H]. rewrite FR in RB.
    pose proof (FE _ _ _ _ _ _ _ G K1 RB) as G'.
    destruct ok.
    + destruct (drain_fragment _ _ _ _ _) as [[b2 ev1]|] eqn:DR; [|discriminate H]. rewrite (drain_sim _ _ _ _ _ _ _ _ T DR).
      destruct (unordered_loop conv fuel _ b2) as [[[d2 b3] ev2]|] eqn:U; [|discriminate H]. injection H as <- <- <-.
      edestruct IH with (st := st) as (st' & R & S); [|exact U|]; [split; [exact T|intros _; exact G']|]. unfold with_memory in R. cbn [d_open d_file d_printed d_bf d_good d_cp d_free] in R.
      rewrite R. exists st'. auto.
    + edestruct IH with (st := st) as (st' & R & S); [|exact H|]; [split; [exact T|intros _; exact G']|]. exists st'. exact (conj R S).
  - destruct (kind _ =? ET_CHECKPOINT) eqn:K2; [apply Z.eqb_eq in K2|apply Z.eqb_neq in K2].
    + assert (FR : f = File (f_rest (d_file d)) false) by (destruct EC as [[EC _]|EC]; [rewrite EC in K2; discriminate K2|exact EC]).
      destruct (readDictionary (d_cp d) (d_dict d) f) as [[[[f' cp'] dict'] ok]|] eqn:RD; [|discriminate H].
      destruct (checkpoint_sim lim _ st _ _ _ _ _ _ T RD) as (st1 & R1 & T1 & Z1). rewrite R1. rewrite FR in RD.
      destruct (unordered_loop conv fuel _ b) as [[[d2 b2] ev]|] eqn:U; [|discriminate H].
      assert (S1 : same lim P (Decoder (d_open d) f' (d_printed d) (d_bf d) ok cp' (d_free d) dict') st1).
      { split; [exact T1|]. cbn [d_good d_file]. intros ->. rewrite (Z1 eq_refl). exact (FC _ _ _ _ _ _ _ G K2 RD). }
      destruct (IH _ st1 _ _ _ _ S1 U) as (st' & R & S). unfold with_memory in R. cbn [d_open d_file d_printed d_bf d_good d_cp d_free] in R.
      rewrite R. injection H as <- <- <-. exists st'. auto.
    + destruct (kind _ =? ET_LOG_MSGS_OR_DIC) eqn:K3; [apply Z.eqb_eq in K3|apply Z.eqb_neq in K3].
      * assert (FR : f = File (f_rest (d_file d)) false) by (destruct EC as [[EC _]|EC]; [rewrite EC in K3; discriminate K3|exact EC]).
        destruct (readDictionaryFragment f (d_dict d)) as [[[f' dict'] ok]|] eqn:RD; [|discriminate H]. rewrite FR in *.
        destruct (FF _ _ _ _ _ _ G K3 RD) as (pre & L0 & LB & L1 & L2).
        destruct (fragment_sim lim (File (f_rest (d_file d)) false) _ st _ _ _ pre L0 LB T RD L1) as (st1 & R1 & T1 & Z1). rewrite R1.
        apply (IH (Decoder (d_open d) f' (d_printed d) (d_bf d) ok (d_cp d) (d_free d) dict') st1); auto.
        split; [exact T1|]. cbn [d_good d_file]. intros ->. apply L2; auto.
      * apply (IH (Decoder (d_open d) (skip_padding (S (length (f_rest f))) f) (d_printed d) (d_bf d) (d_good d) (d_cp d) (d_free d) (d_dict d)) st); auto.
        split; [exact T|]. cbn [d_good d_file]. intros _. destruct EC as [[EC ->]|EC].
        -- cbn [skip_padding f_eof f_rest]. now rewrite <- EC.
        -- rewrite EC. cbn [f_rest]. apply FP; auto. now apply kind_four.
Qed.

Lemma unordered_all_sim : forall lim conv P d st d' evs n, fits lim P -> same lim P d st ->
  decompressUnordered conv d = Some (d', evs, n) ->
  exists st', m_decompressUnordered lim conv (with_memory d st) = Some (with_memory d' st', evs, n) /\ same lim P d' st'.
Proof.
  intros lim conv P d st d' evs n F (T & G) H. unfold decompressUnordered in H. unfold m_decompressUnordered, with_memory at 1. cbn [md_open].
  destruct (negb (d_open d)). { injection H as <- <- <-. exists st. split; [reflexivity|]. split; auto. }
  unfold with_memory. cbn [md_open md_file md_printed md_bf md_good md_cp md_free md_st].
  destruct (allocateBufferFragment (d_free d)) as [b free].
  destruct (unordered_loop conv _ _ b) as [[[d2 b'] ev]|] eqn:U; [|discriminate H].
  edestruct (unordered_sim lim conv P F) with (st := st) as (st' & R & S); [|exact U|]; [split; [exact T|exact G]|].
  unfold with_memory in R. cbn [d_open d_file d_printed d_bf d_good d_cp d_free] in R. rewrite R.
  injection H as <- <- <-. exists st'. split; [reflexivity|]. exact S.
Qed.

Lemma next_extent_sim : forall lim P, fits lim P -> forall fuel d st d' evs r, same lim P d st ->
  next_extent fuel d = Some (d', evs, r) ->
  exists st', m_next_extent lim fuel (with_memory d st) = Some (with_memory d' st', evs, r) /\ same lim P d' st'.
Proof.
  intros lim P (FF & FC & FE & FP). induction fuel as [|fuel IH]; intros d st d' evs r (T & G) H; [discriminate H|].
  cbn [next_extent] in H. cbn [m_next_extent]. unfold with_memory at 1 2 3. cbn [md_file md_good md_bf].
  destruct (bf_more (d_bf d) || f_eof (d_file d) || negb (d_good d)) eqn:E0. { injection H as <- <- <-. exists st. split; [reflexivity|]. split; auto. }
  assert (GD : d_good d = true) by (destruct (d_good d); auto; rewrite orb_true_r in E0; discriminate E0).
  specialize (G GD). unfold with_memory at 1. cbn [md_file].
  destruct (peekEntryType (d_file d)) as [t f] eqn:EP. apply peek_cases in EP. destruct EP as (-> & ER & EC).
  cbv zeta in *. unfold with_memory. cbn [md_open md_file md_printed md_bf md_good md_cp md_free md_st].
  destruct (kind _ =? ET_BUFFER_EXTENT) eqn:K1; [apply Z.eqb_eq in K1|apply Z.eqb_neq in K1].
  - assert (FR : f = File (f_rest (d_file d)) false) by (destruct EC as [[EC _]|EC]; [rewrite EC in K1; discriminate K1|exact EC]).
    destruct (readBufferExtent f (d_bf d)) as [[[[f' b1] ok] w]|] eqn:RB; [|discriminate H]. rewrite FR in RB.
    pose proof (FE _ _ _ _ _ _ _ G K1 RB) as G'.
    destruct ok.
    { edestruct IH with (st := st) as (st' & R & S); [|exact H|]; [split; [exact T|intros _; exact G']|]. exists st'. exact (conj R S). }
    injection H as <- <- <-. exists st. split; [reflexivity|]. split; auto; cbn [d_good]; discriminate.
  - destruct (kind _ =? ET_CHECKPOINT) eqn:K2; [apply Z.eqb_eq in K2|apply Z.eqb_neq in K2].
    + assert (FR : f = File (f_rest (d_file d)) false) by (destruct EC as [[EC _]|EC]; [rewrite EC in K2; discriminate K2|exact EC]).
      destruct (readDictionary (d_cp d) (d_dict d) f) as [[[[f' cp'] dict'] ok]|] eqn:RD; [|discriminate H].
      destruct (checkpoint_sim lim _ st _ _ _ _ _ _ T RD) as (st1 & R1 & T1 & Z1). rewrite R1. rewrite FR in RD.
      destruct ok.
      * destruct (next_extent fuel _) as [[[d2 ev] r2]|] eqn:U; [|discriminate H].
        assert (S1 : same lim P (Decoder (d_open d) f' (d_printed d) (d_bf d) (d_good d) cp' (d_free d) dict') st1).
        { split; [exact T1|]. cbn [d_good d_file]. intros _. rewrite (Z1 eq_refl). exact (FC _ _ _ _ _ _ _ G K2 RD). }
        destruct (IH _ st1 _ _ _ S1 U) as (st' & R & S). unfold with_memory in R. cbn [d_open d_file d_printed d_bf d_good d_cp d_free] in R.
        rewrite R. injection H as <- <- <-. exists st'. auto.
      * injection H as <- <- <-. exists st1. split; [reflexivity|]. split; auto; cbn [d_good]; discriminate.
    + destruct (kind _ =? ET_LOG_MSGS_OR_DIC) eqn:K3; [apply Z.eqb_eq in K3|apply Z.eqb_neq in K3].
      * assert (FR : f = File (f_rest (d_file d)) false) by (destruct EC as [[EC _]|EC]; [rewrite EC in K3; discriminate K3|exact EC]).
        destruct (readDictionaryFragment f (d_dict d)) as [[[f' dict'] ok]|] eqn:RD; [|discriminate H]. rewrite FR in *.
        destruct (FF _ _ _ _ _ _ G K3 RD) as (pre & L0 & LB & L1 & L2).
        destruct (fragment_sim lim (File (f_rest (d_file d)) false) _ st _ _ _ pre L0 LB T RD L1) as (st1 & R1 & T1 & Z1). rewrite R1.
        apply (IH (Decoder (d_open d) f' (d_printed d) (d_bf d) ok (d_cp d) (d_free d) dict') st1); auto.
        split; [exact T1|]. cbn [d_good d_file]. intros ->. apply L2; auto.
      * apply (IH (Decoder (d_open d) (skip_padding (S (length (f_rest f))) f) (d_printed d) (d_bf d) (d_good d) (d_cp d) (d_free d) (d_dict d)) st); auto.
        split; [exact T|]. cbn [d_good d_file]. intros _. destruct EC as [[EC ->]|EC].
        -- cbn [skip_padding f_eof f_rest]. now rewrite <- EC.
        -- rewrite EC. cbn [f_rest]. apply FP; auto. now apply kind_four.
Qed.

Lemma next_from_sim : forall lim conv P d st d' evs r, same lim P d st -> next_from conv d = Some (d', evs, r) ->
  m_next_from lim conv (with_memory d st) = Some (with_memory d' st, evs, r) /\ same lim P d' st.
Proof.
  intros lim conv P d st d' evs r (T & G) H. unfold next_from in H. unfold m_next_from, with_memory.
  cbn [md_open md_file md_printed md_bf md_good md_cp md_free md_st].
  destruct (decompressNext conv (d_dict d) (d_bf d)) as [[b o]|] eqn:E; [|discriminate H]. rewrite (next_sim _ _ _ _ _ _ T E).
  destruct o; injection H as <- <- <-; (split; [reflexivity|split; auto]).
Qed.

Lemma getNext_sim : forall lim conv P d st d' evs r, fits lim P -> same lim P d st ->
  getNextLogStatement conv d = Some (d', evs, r) ->
  exists st', m_getNextLogStatement lim conv (with_memory d st) = Some (with_memory d' st', evs, r) /\ same lim P d' st'.
Proof.
  intros lim conv P d st d' evs r F S H. unfold getNextLogStatement in H. unfold m_getNextLogStatement.
  fields d st.
  destruct (bf_more (d_bf d)).
  - destruct (next_from conv d) as [[[d1 ev] r1]|] eqn:E; [|discriminate H]. destruct (next_from_sim lim conv P _ st _ _ _ S E) as [-> S1].
    injection H as <- <- <-. exists st. auto.
  - destruct (_ || _). { injection H as <- <- <-. exists st. auto. }
    destruct (next_extent _ d) as [[[d1 ev] r1]|] eqn:E; [|discriminate H].
    destruct (next_extent_sim lim P F _ _ _ _ _ _ S E) as (st1 & -> & S1).
    destruct r1. { injection H as <- <- <-. exists st1. auto. }
    destruct (next_from conv d1) as [[[d2 ev2] r2]|] eqn:E2; [|discriminate H]. destruct (next_from_sim lim conv P _ st1 _ _ _ S1 E2) as [-> S2].
    injection H as <- <- <-. exists st1. auto.
Qed.

Lemma load_entry_sim : forall lim P, fits lim P -> forall d st stages n d' stages' ns must evs, same lim P d st -> d_good d = true ->
  load_entry d stages n = Some (d', stages', ns, must, evs) ->
  exists st', m_load_entry lim (with_memory d st) stages n = Some (with_memory d' st', stages', ns, must, evs) /\ same lim P d' st'.
Proof.
  intros lim P (FF & FC & FE & FP) d st stages n d' stages' ns must evs (T & G) GD H. specialize (G GD).
  unfold load_entry in H. unfold m_load_entry. unfold with_memory at 1. cbn [md_file].
  destruct (peekEntryType (d_file d)) as [t f] eqn:EP. apply peek_cases in EP. destruct EP as (-> & ER & EC).
  cbv zeta in *. unfold with_memory. cbn [md_open md_file md_printed md_bf md_good md_cp md_free md_st].
  destruct (kind _ =? ET_BUFFER_EXTENT) eqn:K1; [apply Z.eqb_eq in K1|apply Z.eqb_neq in K1].
  - assert (FR : f = File (f_rest (d_file d)) false) by (destruct EC as [[EC _]|EC]; [rewrite EC in K1; discriminate K1|exact EC]).
    destruct (allocateBufferFragment (d_free d)) as [b free].
    destruct (readBufferExtent f b) as [[[[f' b1] ok] w]|] eqn:RB; [|discriminate H]. rewrite FR in RB.
    pose proof (FE _ _ _ _ _ _ _ G K1 RB) as G'. injection H as <- <- <- <- <-. exists st. split; [reflexivity|]. split; auto.
  - destruct (kind _ =? ET_CHECKPOINT) eqn:K2; [apply Z.eqb_eq in K2|apply Z.eqb_neq in K2].
    + destruct (negb (is_empty _)).
      { injection H as <- <- <- <- <-. exists st. split; [reflexivity|]. split; auto. cbn [d_file]. now rewrite ER. }
      assert (FR : f = File (f_rest (d_file d)) false) by (destruct EC as [[EC _]|EC]; [rewrite EC in K2; discriminate K2|exact EC]).
      destruct (readDictionary (d_cp d) (d_dict d) f) as [[[[f' cp'] dict'] ok]|] eqn:RD; [|discriminate H].
      destruct (checkpoint_sim lim _ st _ _ _ _ _ _ T RD) as (st1 & R1 & T1 & Z1). rewrite R1. rewrite FR in RD.
      injection H as <- <- <- <- <-. exists st1. split; [reflexivity|]. split; [exact T1|]. cbn [d_good d_file].
      intros ->. rewrite (Z1 eq_refl). exact (FC _ _ _ _ _ _ _ G K2 RD).
    + destruct (kind _ =? ET_LOG_MSGS_OR_DIC) eqn:K3; [apply Z.eqb_eq in K3|apply Z.eqb_neq in K3].
      * assert (FR : f = File (f_rest (d_file d)) false) by (destruct EC as [[EC _]|EC]; [rewrite EC in K3; discriminate K3|exact EC]).
        destruct (readDictionaryFragment f (d_dict d)) as [[[f' dict'] ok]|] eqn:RD; [|discriminate H]. rewrite FR in *.
        destruct (FF _ _ _ _ _ _ G K3 RD) as (pre & L0 & LB & L1 & L2).
        destruct (fragment_sim lim (File (f_rest (d_file d)) false) _ st _ _ _ pre L0 LB T RD L1) as (st1 & R1 & T1 & Z1). rewrite R1.
        injection H as <- <- <- <- <-. exists st1. split; [reflexivity|]. split; [exact T1|]. cbn [d_good d_file]. intros ->. apply L2; auto.
      * injection H as <- <- <- <- <-. exists st. split; [reflexivity|]. split; [exact T|]. cbn [d_good d_file]. intros _.
        destruct EC as [[EC ->]|EC].
        -- cbn [skip_padding f_eof f_rest]. now rewrite <- EC.
        -- rewrite EC. cbn [f_rest]. apply FP; auto. now apply kind_four.
Qed.

Lemma load_stages_sim : forall lim P, fits lim P -> forall fuel d st stages n d' stages' n' must evs, same lim P d st ->
  load_stages fuel d stages n = Some (d', stages', n', must, evs) ->
  exists st', m_load_stages lim fuel (with_memory d st) stages n = Some (with_memory d' st', stages', n', must, evs) /\ same lim P d' st'.
Proof.
  intros lim P F. induction fuel as [|fuel IH]; intros d st stages n d' stages' n' must evs S H; [discriminate H|].
  cbn [load_stages] in H. cbn [m_load_stages]. fields d st.
  destruct (f_eof (d_file d) || negb (d_good d)) eqn:E0. { injection H as <- <- <- <- <-. exists st. auto. }
  assert (GD : d_good d = true) by (destruct (d_good d); auto; rewrite orb_true_r in E0; discriminate E0).
  destruct (load_entry d stages n) as [[[[[d1 st1] ns] m0] ev]|] eqn:E; [|discriminate H].
  destruct (load_entry_sim lim P F _ _ _ _ _ _ _ _ _ S GD E) as (s1 & -> & S1). cbv zeta in *.
  fields d1 s1.
  destruct (_ || (_ =? stagesToBuffer)%nat).
  - injection H as <- <- <- <- <-. exists s1. auto.
  - destruct (load_stages fuel d1 st1 _) as [[[[[d2 st2] n2] m2] ev2]|] eqn:E2; [|discriminate H].
    destruct (IH _ _ _ _ _ _ _ _ _ S1 E2) as (s2 & -> & S2). injection H as <- <- <- <- <-. exists s2. auto.
Qed.

Lemma ordered_sim : forall lim conv pick P, fits lim P -> forall fuel k d st stages n d' evs, same lim P d st ->
  ordered_loop conv pick fuel k d stages n = Some (d', evs) ->
  exists st', m_ordered_loop lim conv pick fuel k (with_memory d st) stages n = Some (with_memory d' st', evs) /\ same lim P d' st'.
Proof.
  intros lim conv pick P F. induction fuel as [|fuel IH]; intros k d st stages n d' evs S H; [discriminate H|].
  cbn [ordered_loop] in H. cbn [m_ordered_loop]. fields d st.
  destruct (f_eof (d_file d) || negb (d_good d)) eqn:E0. { injection H as <- <-. exists st. auto. }
  destruct (load_stages _ d stages n) as [[[[[d1 st1] n1] must] ev1]|] eqn:E; [|discriminate H].
  destruct (load_stages_sim lim P F _ _ _ _ _ _ _ _ _ _ S E) as (s1 & -> & S1).
  destruct (deplete bf_ts (next_message conv (d_cp d1) (d_dict d1)) pick _ k must st1 n1 []) as [[[[[k' st2] n2] fr] ev2]|] eqn:ED; [|discriminate H].
  assert (ED' : deplete bf_ts (m_next_message lim conv (d_cp d1) s1) pick (deplete_fuel st1) k must st1 n1 []
                = Some (k', st2, n2, fr, ev2)).
  { eapply deplete_mono; [|exact ED]. intros b r HB. unfold next_message in HB. unfold m_next_message.
    destruct (decompressNext conv (d_dict d1) b) as [[b' o]|] eqn:EN; [|discriminate HB]. now rewrite (next_sim _ _ _ _ _ _ (proj1 S1) EN). }
  fields d1 s1. rewrite ED'. cbv zeta in *.
  destruct (ordered_loop conv pick fuel k' _ st2 n2) as [[d3 ev3]|] eqn:EO; [|discriminate H].
  edestruct IH with (st := s1) as (s3 & R & S3); [|exact EO|]; [exact S1|]. unfold with_memory in R at 1. cbn [d_open d_file d_printed d_bf d_good d_cp d_free] in R.
  rewrite R. injection H as <- <-. exists s3. auto.
Qed.

Lemma ordered_all_sim : forall lim conv pick P d st d' evs n, fits lim P -> same lim P d st ->
  decompressTo conv pick d = Some (d', evs, n) ->
  exists st', m_decompressTo lim conv pick (with_memory d st) = Some (with_memory d' st', evs, n) /\ same lim P d' st'.
Proof.
  intros lim conv pick P d st d' evs n F S H. unfold decompressTo in H. unfold m_decompressTo. fields d st.
  destruct (negb (d_open d)). { injection H as <- <- <-. exists st. auto. }
  destruct (ordered_loop _ _ _ _ _ _ _) as [[d2 ev]|] eqn:E; [|discriminate H].
  destruct (ordered_sim lim conv pick P F _ _ _ _ _ _ _ _ S E) as (s & -> & S2). injection H as <- <- <-. exists s. auto.
Qed.

Lemma open_sim : forall lim (P : list Z -> Z -> Prop) d st content d' r, tracks lim st (d_dict d) ->
  (forall cp dict f cp' dict', readDictionary cp dict (File content false) = Some (f, cp', dict', true) -> P (f_rest f) 0) ->
  d_open_file d content = Some (d', r) ->
  exists st', md_open_file lim (with_memory d st) content = Some (with_memory d' st', r) /\ same lim P d' st'.
Proof.
  intros lim P d st content d' r T HP H. unfold d_open_file in H. unfold md_open_file. fields d st.
  destruct (readDictionary (d_cp d) (d_dict d) (File content false)) as [[[[f cp] dict] ok]|] eqn:RD; [|discriminate H].
  destruct (checkpoint_sim lim _ st _ _ _ _ _ _ T RD) as (st1 & R1 & T1 & Z1). rewrite R1.
  destruct ok; injection H as <- <-; exists st1; (split; [reflexivity|]); (split; [exact T1|]); cbn [d_good d_file]; [|discriminate].
  intros _. rewrite (Z1 eq_refl). exact (HP _ _ _ _ _ RD).
Qed.

(** ** Any file of a third of the size of rawMetadata *)
Definition small (lim : Z) (bs : list Z) (e : Z) : Prop := Forall is_byte bs /\ 0 <= e /\ e + 3 * zlen bs <= lim.

Lemma small_suffix : forall lim pre bs e, small lim (pre ++ bs) e -> small lim bs e.
Proof.
  intros lim pre bs e (B & E & L). apply Forall_app in B. rewrite zlen_app in L. pose proof (zlen_nonneg _ pre).
  unfold small. splits; try tauto; lia.
Qed.

Lemma extent_shrinks : forall f b f' b' ok w, readBufferExtent f b = Some (f', b', ok, w) -> exists pre, consumed f f' pre.
Proof.
  intros f b f' b' ok w H. unfold readBufferExtent in H. destruct (fread 5 f) as [h f1] eqn:F1. apply fread_split in F1. cbv zeta in H.
  destruct (_ || _). { injection H as <- _ _ _. eexists. exact F1. }
  destruct (_ <? _); [discriminate H|]. destruct (fread _ f1) as [r f2] eqn:F2. apply fread_split in F2.
  assert (C : consumed f f2 (h ++ r)) by (unfold consumed; now rewrite F1, F2, app_assoc).
  destruct (negb _). { injection H as <- _ _ _. eexists. exact C. }
  destruct (if negb _ then _ else _) as [tid pos]. destruct (pos =? _). { injection H as <- _ _ _. eexists. exact C. }
  destruct (decompressLogHeader _ _ _) as [[[id ts] pos']|]; injection H as <- _ _ _; eexists; exact C.
Qed.

Lemma checkpoint_shrinks : forall cp dict f f' cp' dict' ok, readDictionary cp dict f = Some (f', cp', dict', ok) -> exists pre, consumed f f' pre.
Proof.
  intros cp dict f f' cp' dict' ok H. unfold readDictionary in H. destruct (fread 33 f) as [h f1] eqn:F1. apply fread_split in F1. cbv zeta in H.
  exists h. destruct (_ <? _). { injection H as <- _ _ _. exact F1. }
  destruct (negb _); [discriminate H|]. destruct (negb _); [discriminate H|]. injection H as <- _ _ _. exact F1.
Qed.

Lemma padding_shrinks : forall fuel f, exists pre, consumed f (skip_padding fuel f) pre.
Proof.
  induction fuel as [|fuel IH]; intro f; [exists []; reflexivity|]. cbn [skip_padding].
  destruct (f_eof f); [exists []; reflexivity|].
  destruct (peekEntryType f) as [t g] eqn:EP. apply peek_cases in EP. destruct EP as (_ & ER & _).
  destruct (t =? ET_INVALID); [|exists []; unfold consumed; now rewrite ER].
  destruct (IH (fgetc g)) as (pre & C). unfold consumed in *. rewrite <- ER. unfold fgetc in *. destruct (f_rest g) as [|b r] eqn:EG; cbn [f_rest] in *.
  - exists pre. now rewrite <- C.
  - exists (b :: pre). cbn [app]. now rewrite <- C.
Qed.

Lemma small_fits : forall lim, fits lim (small lim).
Proof.
  intro lim. unfold fits. splits.
  - intros bs e dict f dict' ok HP _ H. unfold readDictionaryFragment in H.
    assert (S : exists pre, bs = pre ++ f_rest f).
    { destruct (fread 8 (File bs false)) as [df f1] eqn:F1. apply fread_split in F1. cbn [f_rest] in F1.
      destruct (_ <? _). { injection H as <- _ _. eauto. }
      destruct (negb _); [discriminate H|]. destruct (fragment_shrinks _ _ _ _ _ _ _ _ H) as (pre & ES). exists (df ++ pre). now rewrite F1, ES, app_assoc. }
    destruct S as (pre & ->). exists pre. destruct HP as (B & E & L). apply Forall_app in B. destruct B as [B1 B2]. rewrite zlen_app in L.
    pose proof (zlen_nonneg _ (f_rest f)). pose proof (zlen_nonneg _ pre).
    splits; auto; try reflexivity; try lia. intros _ e' He. unfold small. splits; auto; lia.
  - intros bs e cp dict f cp' dict' HP _ H. destruct (checkpoint_shrinks _ _ _ _ _ _ _ H) as (pre & C). unfold consumed in C. cbn [f_rest] in C. subst bs.
    apply small_suffix in HP. destruct HP as (B & E & L). unfold small. splits; auto; lia.
  - intros bs e b f b' ok w HP _ H. destruct (extent_shrinks _ _ _ _ _ _ H) as (pre & C). unfold consumed in C. cbn [f_rest] in C. subst bs.
    now apply small_suffix in HP.
  - intros bs e HP _. destruct (padding_shrinks (Datatypes.S (length bs)) (File bs false)) as (pre & C). unfold consumed in C. cbn [f_rest] in C.
    rewrite C in HP at 1. now apply small_suffix in HP.
Qed.

(** ** Log files *)

(** The dictionary of every execution fits: a byte of it takes three bytes of
    rawMetadata at most.  [e] bytes are in use. *)
Fixpoint dictionaries_fit (lim e : Z) (items : list item) : Prop :=
  match items with
  | [] => e <= lim
  | IDict total ss :: r => dictionaries_fit lim (e + 3 * zlen (dict_bytes total ss)) r
  | ICheckpoint _ _ :: r => e <= lim /\ dictionaries_fit lim 0 r
  | _ :: r => dictionaries_fit lim e r
  end.

(** The same with what a crash left behind the last item. *)
Definition dict_part (tail : list Z) : Z := if kind tail =? ET_LOG_MSGS_OR_DIC then zlen tail else 0.

Lemma dict_part_nonneg : forall tail, 0 <= dict_part tail.
Proof. intro tail. unfold dict_part. pose proof (zlen_nonneg _ tail). destruct (_ =? _); lia. Qed.

Fixpoint dictionary_fits (lim e : Z) (items : list item) (tail : list Z) : Prop :=
  match items with
  | [] => e + 3 * dict_part tail <= lim
  | IDict total ss :: r => dictionary_fits lim (e + 3 * zlen (dict_bytes total ss)) r tail
  | ICheckpoint _ _ :: r => e <= lim /\ dictionary_fits lim 0 r tail
  | _ :: r => dictionary_fits lim e r tail
  end.

Lemma fits_mono : forall lim items tail e e', e' <= e -> dictionary_fits lim e items tail -> dictionary_fits lim e' items tail.
Proof.
  intros lim. induction items as [|[?|? ?|? ? ?|? ?] items IH]; intros tail e e' L H; cbn [dictionary_fits] in *; try (eapply IH; [|exact H]; lia); try lia.
  destruct H. split; [lia|auto].
Qed.

Lemma fits_le : forall lim items tail e, dictionary_fits lim e items tail -> e <= lim.
Proof.
  intros lim. induction items as [|[?|total ss|? ? ?|? ?] items IH]; intros tail e H; cbn [dictionary_fits] in H; try apply IH in H; try lia.
  - pose proof (dict_part_nonneg tail). lia.
  - pose proof (zlen_nonneg _ (dict_bytes total ss)). lia.
Qed.

Lemma fits_pads : forall lim items tail e, dictionary_fits lim e (drop_pads items) tail <-> dictionary_fits lim e items tail.
Proof. intros lim. induction items as [|[?|? ?|? ? ?|? ?] items IH]; intros tail e; cbn [drop_pads dictionary_fits]; try apply IH; tauto. Qed.

Definition log_file (conv : rconv -> list Z) (lim : Z) (bs : list Z) (e : Z) : Prop :=
  exists known items tail, items_ok conv known items /\ torn conv (knows_all known items) tail /\
    bs = file_bytes items ++ tail /\ 0 <= e /\ dictionary_fits lim e items tail.

Lemma kind_item : forall conv known it rest, item_ok conv known it -> is_pad it = false -> kind (item_bytes it ++ rest) = type_of it.
Proof. intros conv known it rest H Hp. destruct (item_head _ _ _ H Hp) as (b & r & -> & T). exact T. Qed.

Lemma kind_pads : forall conv items known tail, items_ok conv known items -> kind (file_bytes items ++ tail) <> ET_INVALID ->
  file_bytes (drop_pads items) = file_bytes items.
Proof.
  intros conv. induction items as [|it items IH]; intros known tail H K; [reflexivity|]. destruct H as [H1 H2].
  destruct it as [bs|? ?|? ? ?|? ?]; try reflexivity. cbn [drop_pads knows] in *. rewrite file_cons in K.
  destruct bs as [|b bs].
  - cbn [item_bytes app] in K. unfold file_bytes in *. cbn [map concat item_bytes app]. eapply IH; eauto.
  - cbn [item_bytes app kind] in K. destruct K. cbn [item_ok] in H1. inversion H1 as [|? ? [B1 B2] _]; subst. now apply pad_type.
Qed.

(** Something other than padding is next. *)
Lemma log_file_cases : forall conv lim bs e, log_file conv lim bs e -> kind bs <> ET_INVALID ->
  (exists known it items tail, item_ok conv known it /\ is_pad it = false /\ items_ok conv (knows known it) items /\
     torn conv (knows_all (knows known it) items) tail /\ bs = item_bytes it ++ file_bytes items ++ tail /\ 0 <= e /\
     dictionary_fits lim e (it :: items) tail /\ kind bs = type_of it) \/
  (exists known it k, item_ok conv known it /\ is_pad it = false /\ (0 < k < length (item_bytes it))%nat /\
     bs = firstn k (item_bytes it) /\ 0 <= e /\ e + 3 * dict_part bs <= lim /\ kind bs = type_of it).
Proof.
  intros conv lim bs e (known & items & tail & H1 & H2 & E & H0 & H3) K. rewrite E in K.
  pose proof (kind_pads _ _ _ _ H1 K) as ED. rewrite <- ED in E. apply fits_pads in H3. rewrite <- drop_pads_knows in H2.
  apply drop_pads_ok in H1. destruct (drop_pads_cases conv (drop_pads items) known H1) as [C|(it & r & C & Hp & _)];
    rewrite drop_pads_idem in C; rewrite C in *.
  - right. unfold file_bytes in E. cbn [map concat app] in E. cbn [dictionary_fits] in H3. subst bs.
    destruct H2 as [->|(it & k & A1 & A2 & A3 & A4)].
    { cbn [app] in K. rewrite <- ED in K. exfalso. apply K. reflexivity. }
    exists (knows_all known []), it, k. splits; auto; try lia.
    destruct (item_head _ _ _ A1 A2) as (b & r & EH & T). rewrite A4, EH. destruct (firstn_cons _ k b r (proj1 A3)) as (r' & ->). exact T.
  - left. destruct H1 as [H1 H4]. exists known, it, r, tail. rewrite file_cons in E. splits; auto. rewrite E. eapply kind_item; eauto.
Qed.

Lemma Forall_concat : forall A (P : A -> Prop) ll, Forall (Forall P) ll -> Forall P (concat ll).
Proof. intros A P ll H. induction H; cbn [concat]; [constructor|apply Forall_app; auto]. Qed.

Lemma dict_bytes_bytes : forall total ss, Forall site_ok ss -> Forall is_byte (dict_bytes total ss).
Proof.
  intros total ss H. unfold dict_bytes. apply Forall_app. split; [apply le_bytes_is_byte|]. apply Forall_app. split; [apply le_bytes_is_byte|].
  apply Forall_concat, Forall_map. eapply Forall_impl; [|exact H]. intros s (S1 & S2 & S3 & S4 & _).
  assert (B : forall l, Forall nonzero_byte l -> Forall is_byte (l ++ [0])).
  { intros l Hl. apply Forall_app. split; [|constructor; [unfold is_byte; lia|constructor]]. eapply Forall_impl; [|exact Hl].
    intros c Hc. unfold nonzero_byte in Hc. unfold is_byte. lia. }
  unfold dict_entry. repeat (apply Forall_app; split); auto using le_bytes_is_byte;
    try (constructor; [unfold is_byte; lia|constructor]).
  - apply B in S3. apply Forall_app in S3. tauto.
  - apply B in S4. apply Forall_app in S4. tauto.
Qed.

Lemma log_file_fits : forall conv lim, fits lim (log_file conv lim).
Proof.
  intros conv lim. unfold fits. splits.
  - intros bs e dict f dict' ok HP K H. assert (NK : kind bs <> ET_INVALID) by (rewrite K; discriminate).
    destruct (log_file_cases _ _ _ _ HP NK) as [(known & it & items & tail & I1 & I2 & I3 & I4 & I5 & I6 & I7 & I8)|(known & it & k & I1 & I2 & I3 & I4 & I5 & I6 & I7)].
    + rewrite K in I8. destruct it as [?|total ss|? ? ?|? ?]; try discriminate I8. subst bs.
      rewrite (readDictionaryFragment_spec conv known) in H by auto. injection H as <- _ <-.
      exists (dict_bytes total ss). pose proof I1 as (J1 & J2 & J3). cbn [dictionary_fits] in I7. splits.
      * reflexivity.
      * now apply dict_bytes_bytes.
      * eapply fits_le; eauto.
      * intros _ e' He. cbn [f_rest]. exists (knows known (IDict total ss)), items, tail. splits; auto; try lia. eapply fits_mono; [|exact I7]. lia.
    + rewrite K in I7. destruct it as [?|total ss|? ? ?|? ?]; try discriminate I7. unfold dict_part in I6. rewrite K, Z.eqb_refl in I6. subst bs.
      destruct (torn_dict conv known total ss k dict I1 ltac:(lia)) as (dict'' & TD). rewrite TD in H. injection H as <- _ <-.
      exists (firstn k (dict_bytes total ss)). pose proof I1 as (J1 & J2 & J3). splits; auto.
      * unfold consumed. cbn [f_rest item_bytes]. now rewrite app_nil_r.
      * apply Forall_first. now apply dict_bytes_bytes.
      * discriminate.
  - intros bs e cp dict f cp' dict' HP K H. assert (NK : kind bs <> ET_INVALID) by (rewrite K; discriminate).
    destruct (log_file_cases _ _ _ _ HP NK) as [(known & it & items & tail & I1 & I2 & I3 & I4 & I5 & I6 & I7 & I8)|(known & it & k & I1 & I2 & I3 & I4 & I5 & I6 & I7)].
    + rewrite K in I8. destruct it as [?|? ?|? ? ?|junk cpx]; try discriminate I8. subst bs.
      rewrite (readDictionary_spec conv known) in H by auto. injection H as <- _ _. cbn [f_rest].
      cbn [dictionary_fits] in I7. exists (knows known (ICheckpoint junk cpx)), items, tail. splits; auto; try lia. tauto.
    + rewrite K in I7. destruct it as [?|? ?|? ? ?|junk cpx]; try discriminate I7. subst bs.
      rewrite (torn_checkpoint conv known) in H by (auto; lia). discriminate H.
  - intros bs e b f b' ok w HP K H. assert (NK : kind bs <> ET_INVALID) by (rewrite K; discriminate).
    destruct (log_file_cases _ _ _ _ HP NK) as [(known & it & items & tail & I1 & I2 & I3 & I4 & I5 & I6 & I7 & I8)|(known & it & k & I1 & I2 & I3 & I4 & I5 & I6 & I7)].
    + rewrite K in I8. destruct it as [?|? ?|tid np ms|? ?]; try discriminate I8. subst bs. pose proof I1 as (J1 & J2 & J3).
      destruct (readBufferExtent_spec tid np (map fm_w ms) (file_bytes items ++ tail) b J1 (fmsgs_wm _ _ _ J3) J2) as (b2 & RB & _).
      cbn [item_bytes] in H. rewrite RB in H. injection H as <- _ _ _. cbn [f_rest]. exists known, items, tail. splits; auto.
    + rewrite K in I7. destruct it as [?|? ?|tid np ms|? ?]; try discriminate I7.
      destruct (torn_extent conv known tid np ms k b I1 ltac:(lia)) as (b2 & RB & _). subst bs. rewrite RB in H. injection H as <- _ _ _.
      cbn [f_rest]. exists known, [], []. pose proof (zlen_nonneg _ (firstn k (item_bytes (IExtent tid np ms)))).
      splits; auto; try exact I; try (left; reflexivity). cbn [dictionary_fits]. change (dict_part []) with 0. pose proof (dict_part_nonneg (firstn k (item_bytes (IExtent tid np ms)))). lia.
  - intros bs e (known & items & tail & H1 & H2 & -> & H0 & H3) K.
    rewrite (skip_items conv items known) by (auto; try lia; eapply torn_starts; eauto). cbn [f_rest].
    exists known, (drop_pads items), tail. splits; auto.
    + now apply drop_pads_ok.
    + now rewrite drop_pads_knows.
    + now apply fits_pads.
Qed.

Lemma dicts_le : forall lim items e, dictionaries_fit lim e items -> e <= lim.
Proof.
  intros lim. induction items as [|[?|total ss|? ? ?|? ?] items IH]; intros e H; cbn [dictionaries_fit] in H; try apply IH in H; try lia.
  pose proof (zlen_nonneg _ (dict_bytes total ss)). lia.
Qed.

Lemma cut_fits : forall conv lim items k known e, items_ok conv known items -> dictionaries_fit lim e items ->
  exists items' tail, firstn k (file_bytes items) = file_bytes items' ++ tail /\ items_ok conv known items' /\
    torn conv (knows_all known items') tail /\ dictionary_fits lim e items' tail.
Proof.
  intros conv lim. induction items as [|it items IH]; intros k known e Hi HD.
  - exists [], []. cbn [file_bytes map concat]. rewrite firstn_nil. splits; auto; [now left|]. cbn [dictionary_fits dictionaries_fit] in *.
    change (dict_part []) with 0. lia.
  - destruct Hi as [Hit Hi]. unfold file_bytes. cbn [map concat].
    destruct (length (item_bytes it) <=? k)%nat eqn:Ek; [apply Nat.leb_le in Ek|apply Nat.leb_gt in Ek].
    + assert (HR : exists e', dictionaries_fit lim e' items /\ forall items' tail, dictionary_fits lim e' items' tail -> dictionary_fits lim e (it :: items') tail).
      { destruct it; cbn [dictionaries_fit dictionary_fits] in *; try (eexists; split; [exact HD|auto]).
        exists 0. split; [tauto|]. intros. split; [tauto|auto]. }
      destruct HR as (e' & HR1 & HR2).
      destruct (IH (k - length (item_bytes it))%nat (knows known it) e' Hi HR1) as (items' & tail & E1 & E2 & E3 & E4).
      exists (it :: items'), tail. splits; auto.
      * rewrite firstn_app. rewrite firstn_all2 by lia. fold (file_bytes items). rewrite E1. cbn [map concat]. now rewrite app_assoc.
      * now split.
    + rewrite firstn_app. replace (k - length (item_bytes it))%nat with 0%nat by lia. rewrite firstn_O, app_nil_r.
      pose proof (dicts_le _ _ _ HD) as LE. destruct (is_pad it) eqn:Hp.
      * destruct it as [bs|? ?|? ? ?|? ?]; try discriminate Hp. exists [IPad (firstn k bs)], []. cbn [map concat item_bytes].
        rewrite !app_nil_r. splits; auto.
        -- split; [|exact I]. cbn [item_ok] in *. now apply Forall_first.
        -- now left.
        -- cbn [dictionary_fits]. change (dict_part []) with 0. lia.
      * exists [], (firstn k (item_bytes it)). cbn [map concat app]. splits; auto; try exact I.
        -- destruct k as [|k]; [left; reflexivity|]. right. exists it, (S k). splits; auto; try lia.
        -- cbn [dictionary_fits]. destruct k as [|k]; [change (dict_part (firstn 0 (item_bytes it))) with 0; lia|].
           assert (K : kind (firstn (S k) (item_bytes it)) = type_of it).
           { destruct (item_head _ _ _ Hit Hp) as (b & r & EH & T). rewrite EH. exact T. }
           unfold dict_part. rewrite K. destruct it as [?|total ss|? ? ?|? ?]; try discriminate Hp; cbn [type_of].
           ++ change (ET_LOG_MSGS_OR_DIC =? ET_LOG_MSGS_OR_DIC) with true. cbv iota. cbn [dictionaries_fit] in HD. apply dicts_le in HD.
              cbn [item_bytes] in *. unfold zlen in *. rewrite firstn_length. lia.
           ++ change (ET_BUFFER_EXTENT =? ET_LOG_MSGS_OR_DIC) with false. cbv iota. lia.
           ++ change (ET_CHECKPOINT =? ET_LOG_MSGS_OR_DIC) with false. cbv iota. lia.
Qed.
