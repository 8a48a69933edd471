(** C41: dictionaries stored with a checkpoint. *)
From Coq Require String.
From Verif Require Import Base BaseProofs Packer PackerProofs LogHeader LogHeaderProofs Chars Fmt MicroCode Args Printf Decode DecodeProofs RingProofs
  Encoder Wire EncoderProofs Decoder FileSpec DecoderProofs MetaDict.

(** ** Specification *)

(** The bytes of a dictionary entry, as described in Log.h:383-430. *)
Definition ftype_number (t : ftype) : Z :=
  match t with
  | NONE => 0
  | unsigned_char_t => 1 | unsigned_short_int_t => 2 | unsigned_int_t => 3 | unsigned_long_int_t => 4
  | unsigned_long_long_int_t => 5 | uintmax_t_t => 6 | size_t_t => 7 | wint_t_t => 8
  | signed_char_t => 9 | short_int_t => 10 | int_t => 11 | long_int_t => 12 | long_long_int_t => 13
  | intmax_t_t => 14 | ptrdiff_t_t => 15
  | double_t => 16 | long_double_t => 17 | const_void_ptr_t => 18 | const_char_ptr_t => 19 | const_wchar_t_ptr_t => 20
  end.

(** [j]: the bit no field occupies; it is whatever was in memory. *)
Definition frag_bytes (j : bool) (f : frag) : list Z :=
  [ftype_number (fr_type f) + (if fr_dw f then 32 else 0) + (if fr_dp f then 64 else 0) + (if j then 128 else 0)]
  ++ le_bytes 2 (zlen (fr_text f) + 1) ++ fr_text f ++ [0].

Fixpoint frags_bytes (js : list bool) (fs : list frag) : list Z :=
  match fs with
  | [] => []
  | f :: r => frag_bytes (hd false js) f ++ frags_bytes (tl js) r
  end.

(** An entry, with the unused bits of its fragments. *)
Definition meta := (microcode * list bool)%type.

Definition meta_bytes (x : meta) : list Z :=
  let mc := fst x in
  [mc_numNibbles mc; mc_numFrags mc; mc_level mc] ++ le_bytes 4 (mc_line mc)
  ++ le_bytes 2 (zlen (mc_file mc) + 1) ++ (mc_file mc ++ [0]) ++ frags_bytes (snd x) (mc_frags mc).

Definition metas_bytes (D : list meta) : list Z := concat (map meta_bytes D).

Definition frag_wf (f : frag) : Prop := Forall nonzero_byte (fr_text f) /\ zlen (fr_text f) + 1 < 2 ^ 16.

Definition meta_wf (mc : microcode) : Prop :=
  0 <= mc_numNibbles mc < 256 /\ 0 <= mc_level mc < 256 /\ 0 <= mc_line mc < 2 ^ 32 /\
  mc_numFrags mc = zlen (mc_frags mc) /\ zlen (mc_frags mc) < 256 /\
  Forall nonzero_byte (mc_file mc) /\ zlen (mc_file mc) + 1 < 2 ^ 16 /\ Forall frag_wf (mc_frags mc).

(** The text of the statement. *)
Definition meta_text (mc : microcode) : list Z := concat (map fr_text (mc_frags mc)).

(** A checkpoint with a dictionary, Log.h:309-341. *)
Definition execution_bytes (junk : Z) (cp : checkpoint) (D : list meta) : list Z :=
  [3 + 4 * junk] ++ le_bytes 8 (cp_rdtsc cp) ++ le_bytes 8 (cp_unixTime cp) ++ cp_cps cp
  ++ le_bytes 4 (zlen (metas_bytes D)) ++ le_bytes 4 (zlen D) ++ metas_bytes D.

Definition execution_ok (junk : Z) (cp : checkpoint) (D : list meta) : Prop :=
  0 <= junk < 64 /\ 0 <= cp_rdtsc cp < 2 ^ 64 /\ 0 <= cp_unixTime cp < 2 ^ 64 /\
  length (cp_cps cp) = 8%nat /\ Forall is_byte (cp_cps cp) /\
  Forall meta_wf (map fst D) /\ zlen (metas_bytes D) < 2 ^ 32 /\ zlen D < 2 ^ 32.

(** What the decompressor uses for the ids 0, 1, ... *)
Definition uses (lim : Z) (st : metas) (D : list meta) : Prop :=
  map (microcode_at lim (ms_mem st)) (ms_at st) = map Some (map fst D) /\ ms_fmts st = map meta_text (map fst D).

(** The state of a decompressor whose dictionary is [D] and that read it to the
    start of rawMetadata. *)
Definition holds (lim : Z) (st : metas) (D : list meta) : Prop :=
  uses lim st D /\ ms_end st = zlen (metas_bytes D) /\
  load (ms_mem st) 0 (length (metas_bytes D)) = metas_bytes D /\ Forall meta_wf (map fst D).

(** C41 as claimed: after the checkpoint of an execution its own dictionary is
    used, whatever was used before. *)
Definition C41_full : Prop := forall lim junk cp0 cp old new st rest,
  holds lim st old -> execution_ok junk cp new ->
  zlen (metas_bytes old) + zlen (metas_bytes new) <= lim ->
  exists st', read_dictionary lim true cp0 st (File (execution_bytes junk cp new ++ rest) false)
              = Some (File rest false, cp, st', true) /\ uses lim st' new.

(** ** Reading entries *)


Definition at_ (m : mem) (p : Z) (l : list Z) : Prop := load m p (length l) = l.

Lemma at_app : forall m p a b, at_ m p (a ++ b) -> at_ m p a /\ at_ m (p + zlen a) b.
Proof. intros m p a b H. unfold at_ in *. now apply load_split in H. Qed.

Lemma app_at : forall m p a b, at_ m p a -> at_ m (p + zlen a) b -> at_ m p (a ++ b).
Proof. intros m p a b H1 H2. unfold at_ in *. rewrite app_length, load_app. fold (zlen a). now rewrite H1, H2. Qed.

Lemma at_one : forall m p x l, at_ m p (x :: l) -> m p = x /\ at_ m (p + 1) l.
Proof. intros m p x l H. unfold at_ in *. cbn [length load] in H. split; congruence. Qed.

Lemma at_le : forall m p n v, at_ m p (le_bytes n v) -> 0 <= v < 256 ^ Z.of_nat n -> le_val (load m p n) = v.
Proof.
  intros m p n v H Hv. unfold at_ in H. rewrite le_bytes_length in H. rewrite H, le_val_le_bytes. now apply Z.mod_small.
Qed.

Lemma at_str : forall m p s lim, at_ m p (s ++ [0]) -> Forall nonzero_byte s -> p + zlen s + 1 <= lim ->
  mstr (Z.to_nat (lim - p)) m p = Some s.
Proof.
  intros m p s lim H Hs Hl. apply mstr_load; auto.
  - eapply Forall_impl; [|exact Hs]. unfold nonzero_byte. intros; lia.
  - unfold zlen in Hl. lia.
Qed.

Lemma frag_zlen : forall j f, zlen (frag_bytes j f) = 4 + zlen (fr_text f).
Proof. intros j f. unfold frag_bytes. rewrite !zlen_app, le_bytes_zlen. cbn [zlen length]. unfold zlen. cbn [length]. lia. Qed.

Lemma frag_head : forall j f m p lim, at_ m p (frag_bytes j f) -> frag_wf f -> p + zlen (frag_bytes j f) <= lim ->
  m p = ftype_number (fr_type f) + (if fr_dw f then 32 else 0) + (if fr_dp f then 64 else 0) + (if j then 128 else 0) /\
  le_val (load m (p + 1) 2) = zlen (fr_text f) + 1 /\
  mstr (Z.to_nat (lim - (p + 3))) m (p + 3) = Some (fr_text f).
Proof.
  intros j f m p lim H (Ht & Hn) Hl. rewrite frag_zlen in Hl. unfold frag_bytes in H.
  apply at_app in H. destruct H as [H0 H]. change (zlen [_]) with 1 in H.
  apply at_app in H. destruct H as [H1 H]. rewrite le_bytes_zlen in H. replace (p + 1 + Z.of_nat 2) with (p + 3) in H by lia.
  pose proof (zlen_nonneg _ (fr_text f)).
  split; [|split].
  - apply at_one in H0. tauto.
  - apply at_le; auto. change (256 ^ Z.of_nat 2) with 65536. change (2 ^ 16) with 65536 in Hn. lia.
  - apply at_str; auto. lia.
Qed.

Lemma frags_skip : forall fs js lim newEnd m pos fmt, at_ m pos (frags_bytes js fs) -> Forall frag_wf fs ->
  pos + zlen (frags_bytes js fs) <= lim ->
  exists pos' fmt', skip_frags (length fs) lim newEnd m pos fmt = Some (pos', fmt') /\
    (pos + zlen (frags_bytes js fs) <= newEnd ->
       pos' = pos + zlen (frags_bytes js fs) /\ fmt' = fmt ++ concat (map fr_text fs)) /\
    (newEnd < pos + zlen (frags_bytes js fs) -> newEnd < pos').
Proof.
  induction fs as [|f fs IH]; intros js lim newEnd m pos fmt H W L; cbn [map concat length skip_frags frags_bytes] in *.
  - eexists _, _. split; [reflexivity|]. rewrite app_nil_r. change (zlen []) with 0 in *. split; intros; [split; auto; lia|lia].
  - inversion W as [|? ? Wf Ws]; subst. apply at_app in H. destruct H as [Hf Hs].
    rewrite zlen_app in *. pose proof (zlen_nonneg _ (frags_bytes (tl js) fs)).
    pose proof (zlen_nonneg _ (fr_text f)). pose proof (frag_zlen (hd false js) f).
    destruct (newEnd <? pos) eqn:E.
    + eexists _, _. split; [reflexivity|]. split; intros; lia.
    + destruct (frag_head (hd false js) f m pos lim Hf Wf ltac:(lia)) as (_ & E2 & E3). rewrite E3, E2.
      replace (pos + 3 + (zlen (fr_text f) + 1)) with (pos + zlen (frag_bytes (hd false js) f)) by lia.
      destruct (IH (tl js) lim newEnd m (pos + zlen (frag_bytes (hd false js) f)) (fmt ++ fr_text f) Hs Ws ltac:(lia)) as (pos' & fmt' & R & A & B).
      exists pos', fmt'. split; [exact R|]. split.
      * intro. destruct A as [-> ->]; [lia|]. rewrite <- app_assoc. split; [lia|reflexivity].
      * intro. apply B. lia.
Qed.

Lemma meta_zlen : forall x, zlen (meta_bytes x) = 10 + zlen (mc_file (fst x)) + zlen (frags_bytes (snd x) (mc_frags (fst x))).
Proof. intro x. unfold meta_bytes. cbv zeta. rewrite !zlen_app, !le_bytes_zlen. change (zlen [_; _; _]) with 3. change (zlen [0]) with 1. lia. Qed.

Lemma meta_head : forall x m p lim, let mc := fst x in at_ m p (meta_bytes x) -> meta_wf mc -> p + zlen (meta_bytes x) <= lim ->
  m p = mc_numNibbles mc /\ m (p + 1) = mc_numFrags mc /\ m (p + 2) = mc_level mc /\
  le_val (load m (p + 3) 4) = mc_line mc /\ le_val (load m (p + 7) 2) = zlen (mc_file mc) + 1 /\
  mstr (Z.to_nat (lim - (p + 9))) m (p + 9) = Some (mc_file mc) /\
  at_ m (p + 9 + (zlen (mc_file mc) + 1)) (frags_bytes (snd x) (mc_frags mc)).
Proof.
  intros [mc js] m p lim mc0 H (W1 & W2 & W3 & W4 & W5 & W6 & W7 & W8) L. subst mc0. rewrite meta_zlen in L. unfold meta_bytes in H. cbn [fst snd] in *.
  apply at_app in H. destruct H as [H0 H]. change (zlen [_; _; _]) with 3 in H.
  apply at_app in H. destruct H as [H1 H]. rewrite le_bytes_zlen in H. replace (p + 3 + Z.of_nat 4) with (p + 7) in H by lia.
  apply at_app in H. destruct H as [H2 H]. rewrite le_bytes_zlen in H. replace (p + 7 + Z.of_nat 2) with (p + 9) in H by lia.
  apply at_app in H. destruct H as [H3 H]. rewrite zlen_app in H. change (zlen [0]) with 1 in H.
  apply at_one in H0. destruct H0 as [A0 H0]. apply at_one in H0. destruct H0 as [A1 H0]. apply at_one in H0. destruct H0 as [A2 _].
  replace (p + 1 + 1) with (p + 2) in A2 by lia.
  pose proof (zlen_nonneg _ (mc_file mc)). pose proof (zlen_nonneg _ (frags_bytes js (mc_frags mc))).
  splits; auto.
  - apply at_le; auto.
  - apply at_le; auto. change (256 ^ Z.of_nat 2) with 65536. change (2 ^ 16) with 65536 in W7. lia.
  - apply at_str; auto. lia.
Qed.

Lemma number_type : forall t, nth_error ftypes (Z.to_nat (ftype_number t)) = Some t.
Proof. intros []; reflexivity. Qed.

Lemma number_range : forall t, 0 <= ftype_number t < 32.
Proof. intros []; cbn [ftype_number]; lia. Qed.

Lemma frags_read : forall fs js lim m pos, at_ m pos (frags_bytes js fs) -> Forall frag_wf fs ->
  pos + zlen (frags_bytes js fs) <= lim -> frags_at (length fs) lim m pos = Some fs.
Proof.
  induction fs as [|f fs IH]; intros js lim m pos H W L; cbn [map concat length frags_at frags_bytes] in *; auto.
  inversion W as [|? ? Wf Ws]; subst. apply at_app in H. destruct H as [Hf Hs]. rewrite zlen_app in L.
  pose proof (zlen_nonneg _ (frags_bytes (tl js) fs)). pose proof (frag_zlen (hd false js) f).
  destruct (frag_head (hd false js) f m pos lim Hf Wf ltac:(lia)) as (E1 & E2 & E3). rewrite E3, E2.
  replace (pos + 3 + (zlen (fr_text f) + 1)) with (pos + zlen (frag_bytes (hd false js) f)) by lia.
  rewrite (IH (tl js) lim m _ Hs Ws) by lia.
  pose proof (number_range (fr_type f)) as NR.
  assert (B : bf_get (m pos) 0 5 = ftype_number (fr_type f) /\ bf_get (m pos) 5 1 = (if fr_dw f then 1 else 0) /\
              bf_get (m pos) 6 1 = (if fr_dp f then 1 else 0)).
  { rewrite E1. unfold bf_get. change (2 ^ 0) with 1. change (2 ^ 5) with 32. change (2 ^ 1) with 2. change (2 ^ 6) with 64.
    destruct (fr_dw f), (fr_dp f), (hd false js); lia. }
  destruct B as (B1 & B2 & B3). rewrite B1, B2, B3, number_type.
  destruct f as [ty dw dp tx]. cbn [fr_type fr_dw fr_dp fr_text]. destruct dw, dp; reflexivity.
Qed.

Lemma meta_read : forall x m p lim, at_ m p (meta_bytes x) -> meta_wf (fst x) -> p + zlen (meta_bytes x) <= lim ->
  microcode_at lim m p = Some (fst x).
Proof.
  intros [mc js] m p lim H W L. destruct (meta_head (mc, js) m p lim H W L) as (E0 & E1 & E2 & E3 & E4 & E5 & E6).
  rewrite meta_zlen in L. cbn [fst snd] in *. unfold microcode_at. rewrite E5, E4, E1.
  destruct W as (W1 & W2 & W3 & W4 & W5 & W6 & W7 & W8). rewrite W4. replace (Z.to_nat (zlen (mc_frags mc))) with (length (mc_frags mc)) by (unfold zlen; lia).
  rewrite (frags_read _ js) by (auto; lia). rewrite E0, E2, E3, <- W4. destruct mc; reflexivity.
Qed.

(** The positions of entries laid out from [p]. *)
Fixpoint positions (p : Z) (D : list meta) : list Z :=
  match D with
  | [] => []
  | mc :: r => p :: positions (p + zlen (meta_bytes mc)) r
  end.

Lemma metas_cons : forall mc D, metas_bytes (mc :: D) = meta_bytes mc ++ metas_bytes D.
Proof. reflexivity. Qed.

Lemma metas_app : forall A B, metas_bytes (A ++ B) = metas_bytes A ++ metas_bytes B.
Proof. intros. unfold metas_bytes. now rewrite map_app, concat_app. Qed.

Lemma positions_read : forall D lim m p, at_ m p (metas_bytes D) -> Forall meta_wf (map fst D) -> p + zlen (metas_bytes D) <= lim ->
  map (microcode_at lim m) (positions p D) = map Some (map fst D).
Proof.
  induction D as [|mc D IH]; intros lim m p H W L; cbn [positions map]; auto.
  rewrite metas_cons in *. inversion W as [|? ? W1 W2]; subst. apply at_app in H. destruct H as [H1 H2]. rewrite zlen_app in L.
  pose proof (zlen_nonneg _ (metas_bytes D)). rewrite (meta_read mc) by (auto; lia). f_equal. apply IH; auto. lia.
Qed.

Lemma positions_length : forall D p, length (positions p D) = length D.
Proof. induction D; intros; cbn [positions length]; auto. Qed.

Lemma firstn_bytes_cons : forall k mc D, zlen (metas_bytes (firstn (S k) (mc :: D))) = zlen (meta_bytes mc) + zlen (metas_bytes (firstn k D)).
Proof. intros. cbn [firstn]. now rewrite metas_cons, zlen_app. Qed.

(** The loop either ends with the entries that fill the given number of bytes,
    or no number of entries does. *)
Lemma index_spec : forall D fuel lim newEnd m p ats fmts, at_ m p (metas_bytes D) -> Forall meta_wf (map fst D) ->
  p + zlen (metas_bytes D) <= lim -> p <= newEnd <= p + zlen (metas_bytes D) -> (Z.to_nat (newEnd - p) < fuel)%nat ->
  exists st, index_loop fuel lim newEnd (Metas m p ats fmts) = Some st /\ ms_mem st = m /\
    ((exists k, (k <= length D)%nat /\ ms_end st = newEnd /\ zlen (metas_bytes (firstn k D)) = newEnd - p /\
        ms_at st = ats ++ positions p (firstn k D) /\ ms_fmts st = fmts ++ map meta_text (map fst (firstn k D))) \/
     (newEnd < ms_end st /\ forall k, zlen (metas_bytes (firstn k D)) <> newEnd - p)).
Proof.
  induction D as [|mc D IH]; intros fuel lim newEnd m p ats fmts H W L N F; (destruct fuel as [|fuel]; [lia|]);
    cbn [index_loop ms_mem ms_end ms_at ms_fmts].
  - change (zlen (metas_bytes [])) with 0 in *. assert (newEnd = p) by lia. subst.
    replace (p <? p) with false by lia. eexists. split; [reflexivity|]. split; [reflexivity|]. left. exists O.
    cbn [firstn positions map length]. change (zlen (metas_bytes [])) with 0. rewrite !app_nil_r. cbn. splits; auto; lia.
  - rewrite metas_cons, zlen_app in *. inversion W as [|? ? W1 W2]; subst.
    destruct (at_app _ _ _ _ H) as [H1 H2]. pose proof (zlen_nonneg _ (metas_bytes D)).
    destruct mc as [mc js]. cbn [map fst] in *.
    pose proof (zlen_nonneg _ (mc_file mc)). pose proof (zlen_nonneg _ (frags_bytes js (mc_frags mc))).
    pose proof (meta_zlen (mc, js)) as ML. cbn [fst snd] in ML.
    destruct (p <? newEnd) eqn:E.
    + destruct (meta_head (mc, js) m p lim H1 W1 ltac:(lia)) as (_ & E1 & _ & _ & E4 & _ & E6).
      cbn [fst snd] in *. destruct W1 as (V1 & V2 & V3 & V4 & V5 & V6 & V7 & V8).
      rewrite E1, E4, V4. replace (Z.to_nat (zlen (mc_frags mc))) with (length (mc_frags mc)) by (unfold zlen; lia).
      cbn [fst snd] in *.
      destruct (frags_skip (mc_frags mc) js lim newEnd m _ [] E6 V8 ltac:(lia)) as (pos & fmt & R & A & B). rewrite R.
      replace (p + 9 + (zlen (mc_file mc) + 1) + zlen (frags_bytes js (mc_frags mc))) with (p + zlen (meta_bytes (mc, js))) in A, B by lia.
      destruct (Z_le_gt_dec (p + zlen (meta_bytes (mc, js))) newEnd) as [Hle|Hgt].
      * destruct (A Hle) as [-> ->]. cbn [app].
        destruct (IH fuel lim newEnd m (p + zlen (meta_bytes (mc, js))) (ats ++ [p]) (fmts ++ [concat (map fr_text (mc_frags mc))]) H2 W2)
          as (st & S1 & S2 & S3); try lia.
        exists st. split; [exact S1|]. split; [exact S2|]. destruct S3 as [(k & K1 & K2 & K3 & K4 & K5)|[K1 K2]].
        -- left. exists (S k). rewrite firstn_bytes_cons. cbn [firstn positions map length]. rewrite K4, K5, <- !app_assoc.
           splits; auto; lia.
        -- right. split; auto. intros [|k]; [cbn [firstn]; change (zlen (metas_bytes [])) with 0; lia|].
           rewrite firstn_bytes_cons. specialize (K2 k). lia.
      * specialize (B ltac:(lia)). destruct fuel as [|fuel]; [lia|]. cbn [index_loop ms_end].
        replace (pos <? newEnd) with false by lia. eexists. split; [reflexivity|]. split; [reflexivity|]. right.
        cbn [ms_end]. split; auto. intros [|k]; [cbn [firstn]; change (zlen (metas_bytes [])) with 0; lia|].
        rewrite firstn_bytes_cons. pose proof (zlen_nonneg _ (metas_bytes (firstn k D))). lia.
    + assert (newEnd = p) by lia. subst. eexists. split; [reflexivity|]. split; [reflexivity|]. left. exists O.
      cbn [firstn positions map length]. change (zlen (metas_bytes [])) with 0. rewrite !app_nil_r. cbn. splits; auto; lia.
Qed.

(** ** The checkpoint *)

Definition execution_head (junk : Z) (cp : checkpoint) (D : list meta) : list Z :=
  [3 + 4 * junk] ++ le_bytes 8 (cp_rdtsc cp) ++ le_bytes 8 (cp_unixTime cp) ++ cp_cps cp
  ++ le_bytes 4 (zlen (metas_bytes D)) ++ le_bytes 4 (zlen D).

Lemma execution_split : forall junk cp D rest,
  execution_bytes junk cp D ++ rest = execution_head junk cp D ++ metas_bytes D ++ rest.
Proof. intros. unfold execution_bytes, execution_head. now rewrite <- !app_assoc. Qed.

Lemma head_zlen : forall junk cp D, length (cp_cps cp) = 8%nat -> zlen (execution_head junk cp D) = 33.
Proof.
  intros junk cp D H. unfold execution_head. rewrite !zlen_app, !le_bytes_zlen. change (zlen [_]) with 1. unfold zlen. rewrite H. lia.
Qed.

Lemma head_slices : forall junk cp D, execution_ok junk cp D ->
  let b := execution_head junk cp D in
  entryType (nth 0 b 0) = ET_CHECKPOINT /\
  Checkpoint (le_val (slice 1 8 b)) (le_val (slice 9 8 b)) (slice 17 8 b) = cp /\
  le_val (slice 25 4 b) = zlen (metas_bytes D) /\ le_val (slice 29 4 b) = zlen D.
Proof.
  intros junk [r u c] D (Hj & Hr & Hu & Hl & Hc & _ & Hn & Hd). cbv zeta. cbn [cp_rdtsc cp_unixTime cp_cps] in *.
  assert (Zc : zlen c = 8) by (unfold zlen; lia).
  pose proof (zlen_nonneg _ (metas_bytes D)). pose proof (zlen_nonneg _ D).
  split; [cbn [execution_head nth app]; unfold entryType, ET_CHECKPOINT; bf|].
  unfold execution_head. cbn [cp_rdtsc cp_unixTime cp_cps].
  set (h := [3 + 4 * junk]). assert (Zh : zlen h = 1) by reflexivity.
  set (n4 := le_bytes 4 (zlen (metas_bytes D))). set (t4 := le_bytes 4 (zlen D)).
  assert (S1 : slice 1 8 (h ++ le_bytes 8 r ++ le_bytes 8 u ++ c ++ n4 ++ t4) = le_bytes 8 r) by (apply slice_app; auto).
  assert (S2 : slice 9 8 (h ++ le_bytes 8 r ++ le_bytes 8 u ++ c ++ n4 ++ t4) = le_bytes 8 u).
  { rewrite (app_assoc h). apply slice_app; [|reflexivity]. rewrite zlen_app, le_bytes_zlen. lia. }
  assert (S3 : slice 17 8 (h ++ le_bytes 8 r ++ le_bytes 8 u ++ c ++ n4 ++ t4) = c).
  { rewrite (app_assoc h), (app_assoc (h ++ le_bytes 8 r)). apply slice_app; [|auto]. rewrite !zlen_app, !le_bytes_zlen. lia. }
  assert (S4 : slice 25 4 (h ++ le_bytes 8 r ++ le_bytes 8 u ++ c ++ n4 ++ t4) = n4).
  { rewrite (app_assoc h), (app_assoc (h ++ le_bytes 8 r)), (app_assoc ((h ++ le_bytes 8 r) ++ _)).
    apply slice_app; [|reflexivity]. rewrite !zlen_app, !le_bytes_zlen. lia. }
  assert (S5 : slice 29 4 (h ++ le_bytes 8 r ++ le_bytes 8 u ++ c ++ n4 ++ t4) = t4).
  { rewrite <- (app_nil_r t4) at 1.
    rewrite (app_assoc h), (app_assoc (h ++ le_bytes 8 r)), (app_assoc ((h ++ le_bytes 8 r) ++ _)).
    rewrite (app_assoc (((h ++ le_bytes 8 r) ++ _) ++ _)).
    apply slice_app; [|reflexivity]. subst n4. rewrite !zlen_app, !le_bytes_zlen. lia. }
  rewrite S1, S2, S3, S4, S5. subst n4 t4. rewrite !le_val_le_bytes.
  change (256 ^ Z.of_nat 8) with (2 ^ 64). change (256 ^ Z.of_nat 4) with (2 ^ 32). rewrite !Z.mod_small by lia. auto.
Qed.

Lemma read_spec : forall lim flush junk cp0 cp D st rest, execution_ok junk cp D -> ms_end st + zlen (metas_bytes D) <= lim ->
  read_dictionary lim flush cp0 st (File (execution_bytes junk cp D ++ rest) false) =
  let m := store (ms_mem st) (ms_end st) (metas_bytes D) in
  let st1 := if flush then Metas m 0 [] [] else Metas m (ms_end st) (ms_at st) (ms_fmts st) in
  match index_loop (S (length (metas_bytes D))) lim (ms_end st1 + zlen (metas_bytes D)) st1 with
  | None => None
  | Some st2 => Some (File rest false, cp, st2, (ms_end st2 =? ms_end st1 + zlen (metas_bytes D)) && (zlen (ms_at st2) =? zlen D))
  end.
Proof.
  intros lim flush junk cp0 cp D st rest H L. destruct (head_slices junk cp D H) as (A1 & A2 & A3 & A4).
  unfold read_dictionary. rewrite execution_split. pose proof (head_zlen junk cp D ltac:(apply H)) as HZ.
  rewrite (fread_app 33) by exact HZ. rewrite HZ. change (33 <? 33) with false. cbv iota.
  rewrite A1. change (ET_CHECKPOINT =? ET_CHECKPOINT) with true. cbn [negb]. rewrite A2, A3, A4.
  rewrite (fread_app (zlen (metas_bytes D))) by reflexivity.
  replace (lim <? ms_end st + zlen (metas_bytes D)) with false by lia. rewrite Z.eqb_refl. cbn [negb]. reflexivity.
Qed.

Lemma Forall_firstn' : forall A (P : A -> Prop) n l, Forall P l -> Forall P (firstn n l).
Proof. intros A P n l H. revert n. induction H; intros [|n]; cbn [firstn]; auto. Qed.

(** What the decompressor does, for all dictionaries: it indexes the bytes at the
    start of rawMetadata, so it succeeds only if the leading entries of the old
    dictionary followed by the new one happen to have the size of the new one,
    and it then uses those entries. *)
Theorem C41_what : forall lim junk cp0 cp old new st rest,
  holds lim st old -> execution_ok junk cp new ->
  zlen (metas_bytes old) + zlen (metas_bytes new) <= lim ->
  let used := firstn (length new) (old ++ new) in
  exists st' ok,
    read_dictionary lim true cp0 st (File (execution_bytes junk cp new ++ rest) false)
    = Some (File rest false, cp, st', ok) /\
    (ok = true <-> zlen (metas_bytes used) = zlen (metas_bytes new)) /\
    (ok = true -> holds lim st' used).
Proof.
  intros lim junk cp0 cp old new st rest (_ & HE & HM & HW) HX L used.
  rewrite read_spec by (auto; lia). cbv zeta iota.
  set (m := store (ms_mem st) (ms_end st) (metas_bytes new)).
  assert (AT : at_ m 0 (metas_bytes (old ++ new))).
  { rewrite metas_app. apply app_at.
    - unfold at_, m. rewrite load_store_disjoint by (fold (zlen (metas_bytes old)); lia). exact HM.
    - rewrite Z.add_0_l, <- HE. apply load_store_same. }
  pose proof (zlen_nonneg _ (metas_bytes old)). pose proof (zlen_nonneg _ (metas_bytes new)).
  assert (HN : Forall meta_wf (map fst new)) by apply HX.
  assert (HON : Forall meta_wf (map fst (old ++ new))) by (rewrite map_app; apply Forall_app; auto).
  assert (LL : zlen (metas_bytes (old ++ new)) = zlen (metas_bytes old) + zlen (metas_bytes new)) by now rewrite metas_app, zlen_app.
  cbn [ms_end]. rewrite Z.add_0_l.
  destruct (index_spec (old ++ new) (S (length (metas_bytes new))) lim (zlen (metas_bytes new)) m 0 [] [] AT HON) as (st' & R & M & C);
    try (unfold zlen in *; lia).
  rewrite R. eexists _, _. split; [reflexivity|]. rewrite andb_true_iff, !Z.eqb_eq.
  assert (mono : forall D j k, (j < k)%nat -> (k <= length D)%nat -> zlen (metas_bytes (firstn j D)) < zlen (metas_bytes (firstn k D))).
  { clear. induction D as [|mc D IH]; intros j k H1 H2; [cbn [length] in H2; lia|].
    destruct k as [|k]; [lia|]. rewrite firstn_bytes_cons. pose proof (meta_zlen mc).
    pose proof (zlen_nonneg _ (mc_file (fst mc))). pose proof (zlen_nonneg _ (frags_bytes (snd mc) (mc_frags (fst mc)))).
    pose proof (zlen_nonneg _ (metas_bytes (firstn k D))).
    destruct j as [|j]; [cbn [firstn]; change (zlen (metas_bytes [])) with 0; lia|]. rewrite firstn_bytes_cons.
    cbn [length] in H2. specialize (IH j k ltac:(lia) ltac:(lia)). lia. }
  assert (LN : (length new <= length (old ++ new))%nat) by (rewrite app_length; lia).
  destruct C as [(k & K1 & K2 & K3 & K4 & K5)|[K1 K2]].
  - rewrite K4, K2. cbn [app].
    replace (zlen (positions 0 (firstn k (old ++ new)))) with (Z.of_nat k) by (unfold zlen; rewrite positions_length, firstn_length_le; auto).
    rewrite Z.sub_0_r in K3.
    assert (EQ : Z.of_nat k = zlen new <-> zlen (metas_bytes used) = zlen (metas_bytes new)).
    { unfold used. split; intro Q.
      - replace (length new) with k by (unfold zlen in Q; lia). exact K3.
      - destruct (Nat.lt_trichotomy k (length new)) as [G|[G|G]]; [|unfold zlen; lia|].
        + specialize (mono (old ++ new) _ _ G LN). lia.
        + specialize (mono (old ++ new) _ _ G K1). lia. }
    split; [tauto|]. intros [_ Q]. pose proof (proj1 EQ Q) as Q'.
    assert (k = length new) by (unfold zlen in Q; lia). subst k. fold used in K4, K5, K3.
    assert (AU : at_ m 0 (metas_bytes used)).
    { rewrite <- (firstn_skipn (length new) (old ++ new)), metas_app in AT. apply at_app in AT. apply AT. }
    assert (WU : Forall meta_wf (map fst used)) by (unfold used; rewrite <- firstn_map; now apply Forall_firstn').
    unfold holds, uses. rewrite M, K4, K5, K2. cbn [app]. splits; auto.
    apply positions_read; auto. lia.
  - split; [|intros [? _]; lia]. split; [intros [? _]; lia|]. intro Q. destruct (K2 (length new)). rewrite Z.sub_0_r. exact Q.
Qed.
Print Assumptions C41_what.

Lemma same_size : forall A B, map fst A = map fst B -> zlen (metas_bytes A) = zlen (metas_bytes B).
Proof.
  induction A as [|[mc js] A IH]; intros [|[mc' js'] B] H; try discriminate H; [reflexivity|].
  cbn [map fst] in H. assert (mc' = mc) as -> by congruence. rewrite !metas_cons, !zlen_app, (IH B), !meta_zlen by congruence.
  cbn [fst snd]. f_equal. f_equal. generalize (mc_frags mc). intro fs. clear. revert js js'.
  induction fs as [|f fs IH]; intros js js'; [reflexivity|]. cbn [frags_bytes]. rewrite !zlen_app, !frag_zlen, (IH (tl js) (tl js')). reflexivity.
Qed.

(** Right in two cases: nothing was read before (the first checkpoint after the
    decompressor was created), or the execution carries the same dictionary. *)
Theorem C41_partial : forall lim junk cp0 cp old new st rest,
  holds lim st old -> execution_ok junk cp new ->
  zlen (metas_bytes old) + zlen (metas_bytes new) <= lim -> old = [] \/ map fst old = map fst new ->
  exists st' new', read_dictionary lim true cp0 st (File (execution_bytes junk cp new ++ rest) false)
              = Some (File rest false, cp, st', true) /\ map fst new' = map fst new /\ holds lim st' new'.
Proof.
  intros lim junk cp0 cp old new st rest H HX L E.
  destruct (C41_what lim junk cp0 cp old new st rest H HX L) as (st' & ok & R & I & U).
  assert (F : map fst (firstn (length new) (old ++ new)) = map fst new).
  { destruct E as [->|E]; [cbn [app]; now rewrite firstn_all|].
    assert (LL : length old = length new) by (pose proof (f_equal (@length _) E) as Q; rewrite !map_length in Q; exact Q).
    rewrite firstn_app, <- LL, Nat.sub_diag, firstn_all, firstn_O, app_nil_r. exact E. }
  assert (ok = true) by (apply I; now apply same_size). subst. exists st', (firstn (length new) (old ++ new)). auto.
Qed.
Print Assumptions C41_partial.

(** Any number of executions of one program. *)
Definition executions_bytes (es : list (Z * checkpoint * list meta)) : list Z :=
  concat (map (fun e => execution_bytes (fst (fst e)) (snd (fst e)) (snd e)) es).

Fixpoint read_all (lim : Z) (n : nat) (cp : checkpoint) (st : metas) (f : file) : option (checkpoint * metas * file) :=
  match n with
  | O => Some (cp, st, f)
  | S k => match read_dictionary lim true cp st f with
           | Some (f', cp', st', true) => read_all lim k cp' st' f'
           | _ => None
           end
  end.

Lemma last_shift : forall A (l : list A) x d, last (x :: l) d = last l x.
Proof. intros A l. induction l as [|y l IH]; intros x d; [reflexivity|]. change (last (y :: l) d = last (y :: l) x). now rewrite !IH. Qed.

Theorem C41_same_program : forall lim es D cp0 st rest, holds lim st D ->
  Forall (fun e => execution_ok (fst (fst e)) (snd (fst e)) (snd e) /\ map fst (snd e) = map fst D) es ->
  2 * zlen (metas_bytes D) <= lim ->
  exists st' D', read_all lim (length es) cp0 st (File (executions_bytes es ++ rest) false)
              = Some (last (map (fun e => snd (fst e)) es) cp0, st', File rest false) /\
    map fst D' = map fst D /\ holds lim st' D'.
Proof.
  intros lim es. induction es as [|[[j cp] E] es IH]; intros D cp0 st rest H HX L; cbn [length read_all map].
  - exists st, D. eauto.
  - inversion HX as [|? ? [X1 X3] X2]; subst. cbn [fst snd] in *.
    unfold executions_bytes. cbn [map concat fst snd]. rewrite <- app_assoc. fold (executions_bytes es).
    pose proof (same_size _ _ X3) as SZ.
    destruct (C41_partial lim j cp0 cp D E st (executions_bytes es ++ rest) H X1 ltac:(lia) (or_intror (eq_sym X3))) as (st' & D1 & R & F1 & H').
    pose proof (same_size _ _ F1) as SZ1.
    rewrite R. destruct (IH D1 cp st' rest H') as (st2 & D2 & R2 & F2 & H2); [|lia|].
    { eapply Forall_impl; [|exact X2]. intros e [A B]. split; auto. congruence. }
    exists st2, D2. split; [|split; [congruence|exact H2]]. rewrite R2. f_equal. f_equal. f_equal.
    symmetry. apply last_shift.
Qed.
Print Assumptions C41_same_program.

(** Without a dictionary, as the C++17 version writes checkpoints, the function
    does what Decoder.v says. *)
Theorem C41_no_dictionary : forall lim junk cp0 cp st dict rest, execution_ok junk cp [] -> 0 <= ms_end st <= lim ->
  exists st', read_dictionary lim true cp0 st (File (execution_bytes junk cp [] ++ rest) false) = Some (File rest false, cp, st', true) /\
    ms_at st' = [] /\ ms_fmts st' = [] /\ ms_end st' = 0 /\
    readDictionary cp0 dict (File (execution_bytes junk cp [] ++ rest) false) = Some (File rest false, cp, [], true).
Proof.
  intros lim junk cp0 cp st dict rest H L. rewrite read_spec by (auto; change (zlen (metas_bytes [])) with 0; lia).
  change (zlen (metas_bytes [])) with 0. cbv zeta iota. cbn [ms_end length metas_bytes map concat index_loop ms_at].
  change (0 <? 0 + 0) with false. cbv iota. eexists. split; [reflexivity|]. cbn [ms_at ms_fmts ms_end]. splits; auto.
  replace (execution_bytes junk cp []) with (item_bytes (ICheckpoint junk cp))
    by (unfold execution_bytes; cbn [item_bytes metas_bytes map concat]; rewrite app_nil_r; reflexivity).
  apply (readDictionary_spec (fun _ => []) []). destruct H as (A & B & C & D & E & _). cbn. auto.
Qed.
Print Assumptions C41_no_dictionary.

(** ** Counterexample and examples *)
Definition str (s : String.string) : list Z := chars s.
Arguments str s%string_scope.

Definition mc_a := MicroCode 1 1 2 10 (str "a.cc") [Frag int_t false false (str "Sent %d")].
Definition mc_b := MicroCode 1 1 3 77 (str "b.cc") [Frag double_t false false (str "Load %f")].
Definition mc_c := MicroCode 0 1 1 12 (str "c.cc") [Frag NONE false false (str "Connection closed")].

Definition cp_demo := Checkpoint 1000 1700000000 [0; 0; 0; 0; 0; 0; 240; 65].

(** A decompressor that was just created, Log.cc:601-632. *)
Definition fresh_metas : metas := Metas (fun _ => 0) 0 [] [].

Lemma fresh_holds : forall lim, holds lim fresh_metas [].
Proof. intro lim. unfold holds, uses. cbn. auto. Qed.

Lemma nz : forall l, forallb (fun c => (0 <? c) && (c <? 256)) l = true -> Forall nonzero_byte l.
Proof. intros l H. apply Forall_forall. intros x Hx. rewrite forallb_forall in H. specialize (H x Hx). unfold nonzero_byte. lia. Qed.

Lemma wf_abc : Forall meta_wf [mc_a; mc_b; mc_c].
Proof. repeat constructor; try (apply nz; reflexivity); cbn; lia. Qed.

Lemma demo_exec_ok : forall D, Forall meta_wf (map fst D) -> zlen (metas_bytes D) < 2 ^ 32 -> zlen D < 2 ^ 32 -> execution_ok 0 cp_demo D.
Proof.
  intros D H1 H2 H3. unfold execution_ok. splits; auto; try (cbn; lia).
  cbn [cp_demo cp_cps]. repeat constructor; unfold is_byte; lia.
Qed.

Lemma wf_one : forall mc, In mc [mc_a; mc_b; mc_c] -> Forall meta_wf [mc].
Proof. intros mc H. constructor; auto. pose proof wf_abc as W. rewrite Forall_forall in W. auto. Qed.

(** After [mc_a], an execution whose only statement is [mc_b]: accepted, and its
    messages are printed as those of [mc_a]. *)
Theorem C41_wrong_text : forall st, holds 4096 st [(mc_a, [])] ->
  exists st', read_dictionary 4096 true cp_demo st (File (execution_bytes 0 cp_demo [(mc_b, [])]) false) = Some (File [] false, cp_demo, st', true) /\
    uses 4096 st' [(mc_a, [])].
Proof.
  intros st H. destruct (C41_what 4096 0 cp_demo cp_demo [(mc_a, [])] [(mc_b, [])] st [] H) as (st' & ok & R & I & U).
  - apply demo_exec_ok; [apply wf_one; cbn; auto| |]; reflexivity.
  - reflexivity || (vm_compute; discriminate).
  - rewrite app_nil_r in R. assert (ok = true) by (apply I; reflexivity). subst ok. exists st'. split; auto. now apply U.
Qed.
Print Assumptions C41_wrong_text.

(** After [mc_a], an execution with [mc_c] instead is rejected, and with it the
    rest of the file. *)
Theorem C41_rejected : forall st, holds 4096 st [(mc_a, [])] ->
  exists st', read_dictionary 4096 true cp_demo st (File (execution_bytes 0 cp_demo [(mc_c, [])]) false) = Some (File [] false, cp_demo, st', false).
Proof.
  intros st H. destruct (C41_what 4096 0 cp_demo cp_demo [(mc_a, [])] [(mc_c, [])] st [] H) as (st' & ok & R & I & U).
  - apply demo_exec_ok; [apply wf_one; cbn; auto| |]; reflexivity.
  - vm_compute; discriminate.
  - rewrite app_nil_r in R. exists st'. destruct ok; auto. exfalso. pose proof (proj1 I eq_refl) as Q. vm_compute in Q. discriminate Q.
Qed.
Print Assumptions C41_rejected.

Lemma holds_a : exists st, holds 4096 st [(mc_a, [])].
Proof.
  destruct (C41_what 4096 0 cp_demo cp_demo [] [(mc_a, [])] fresh_metas [] (fresh_holds _)) as (st & ok & _ & I & U).
  - apply demo_exec_ok; [apply wf_one; cbn; auto| |]; reflexivity.
  - vm_compute; discriminate.
  - exists st. apply U, I. reflexivity.
Qed.

Theorem C41_refuted : ~ C41_full.
Proof.
  intro F. destruct holds_a as (st & H).
  destruct (C41_wrong_text st H) as (st1 & R1 & U1).
  destruct (F 4096 0 cp_demo cp_demo [(mc_a, [])] [(mc_b, [])] st [] H) as (st2 & R2 & U2).
  - apply demo_exec_ok; [apply wf_one; cbn; auto| |]; reflexivity.
  - vm_compute; discriminate.
  - rewrite app_nil_r, R1 in R2. assert (st1 = st2) by congruence. subst.
    destruct U1 as [U1 _], U2 as [U2 _]. rewrite U1 in U2. discriminate U2.
Qed.
Print Assumptions C41_refuted.

Example C41_example : exists st st',
  read_dictionary 4096 true cp_demo fresh_metas (File (execution_bytes 5 cp_demo [(mc_a, [true]); (mc_c, []); (mc_b, [])] ++ [2; 9; 0; 0]) false)
  = Some (File [2; 9; 0; 0] false, cp_demo, st, true) /\
  map (microcode_at 4096 (ms_mem st)) (ms_at st) = [Some mc_a; Some mc_c; Some mc_b] /\
  nth 2 (ms_fmts st) [] = str "Load %f" /\
  read_dictionary 4096 true cp_demo st (File (execution_bytes 0 cp_demo [(mc_b, []); (mc_a, [])]) false) = Some (File [] false, cp_demo, st', false).
Proof. eexists _, _. split; [|split; [|split]]; vm_compute; reflexivity. Qed.
