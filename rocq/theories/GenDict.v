(** The dictionary that the generated writeDictionary() writes. *)
From Verif Require Import Base BaseProofs Packer PackerProofs LogHeader LogHeaderProofs Chars Fmt MicroCode Args ArgsProofs Printf Decode DecodeProofs
  RingProofs Encoder Wire EncoderProofs Decoder FileSpec DecoderProofs MetaDict Preproc GenCode GenMessage Prop_MetaDict Prop_GenCode.
Ltac Zify.zify_post_hook ::= Z.div_mod_to_equations.

Lemma frags_zlen : forall fs js, zlen (frags_bytes js fs) = zlen (frags_bytes [] fs).
Proof.
  induction fs as [|f fs IH]; intro js; [reflexivity|]. cbn [frags_bytes]. rewrite !zlen_app, !frag_zlen, (IH (tl js)), (IH (tl [])). reflexivity.
Qed.

Lemma at_frame : forall m m' p l, at_ m p l -> (forall y, p <= y < p + zlen l -> m' y = m y) -> at_ m' p l.
Proof. intros m m' p l H F. unfold at_ in *. rewrite <- H at 2. apply load_ext. intros y Hy. apply F. unfold zlen. lia. Qed.

Lemma number_same : forall t, format_type t = ftype_number t.
Proof. intros []; reflexivity. Qed.

Definition dfrag_fits (f : dfrag) : Prop := Forall nonzero_byte (df_text f) /\ zlen (df_text f) + 1 < 2 ^ 16.

Lemma nonzero_bytes : forall s, Forall nonzero_byte s -> Forall is_byte s.
Proof. intros s H. eapply Forall_impl; [|exact H]. unfold nonzero_byte, is_byte. intros; lia. Qed.

Lemma text_bytes : forall s, Forall nonzero_byte s -> Forall is_byte (s ++ [0]).
Proof. intros s H. apply Forall_app. split; [now apply nonzero_bytes|]. constructor; [unfold is_byte; lia|constructor]. Qed.

(** What a sequence of writes from [b] on leaves: [bytes] at [b], everything
    outside untouched. *)
Definition wrote (m m' : mem) (b : Z) (bytes : list Z) : Prop :=
  at_ m' b bytes /\ (forall y, y < b \/ b + zlen bytes <= y -> m' y = m y) /\ mem_bytes m'.

Lemma wrote_app : forall m m1 m2 b x y, wrote m m1 b x -> wrote m1 m2 (b + zlen x) y -> wrote m m2 b (x ++ y).
Proof.
  intros m m1 m2 b x y (A1 & F1 & B1) (A2 & F2 & B2).
  pose proof (zlen_nonneg _ x). pose proof (zlen_nonneg _ y). split; [|split]; auto.
  - apply app_at; auto. apply (at_frame m1); auto. intros z Hz. apply F2. lia.
  - intros z Hz. rewrite zlen_app in Hz. rewrite F2 by lia. apply F1. lia.
Qed.

Lemma wrote_store : forall m b bytes, mem_bytes m -> Forall is_byte bytes -> wrote m (store m b bytes) b bytes.
Proof.
  intros m b bytes Hm Hb. split; [apply load_store_same|split].
  - intros y Hy. apply store_outside. lia.
  - now apply store_bytes.
Qed.

(** The first byte of a fragment once its three bit-fields are assigned. *)
Lemma frag_byte : forall x t w p, 0 <= x < 256 -> 0 <= t < 32 -> 0 <= w < 2 -> 0 <= p < 2 ->
  bf_set (bf_set (bf_set x 0 5 t) 5 1 w) 6 1 p = t + 32 * w + 64 * p + 128 * (x / 128).
Proof.
  intros x t w p Hx Ht Hw Hp.
  assert (exists a b c d, 0 <= a < 32 /\ 0 <= b < 2 /\ 0 <= c < 2 /\ 0 <= d < 2 /\ x = a + 32 * b + 64 * c + 128 * d) as
    (a & b & c & d & Ha & Hb & Hc & Hd & ->).
  { exists (x mod 32), (x / 32 mod 2), (x / 64 mod 2), (x / 128). repeat split; lia. }
  unfold bf_set, bf_get. change (2 ^ 0) with 1. change (2 ^ 5) with 32. change (2 ^ 1) with 2. change (2 ^ 6) with 64.
  rewrite Z.div_1_r, (Z.mod_small t 32), (Z.mod_small w 2), (Z.mod_small p 2) by lia.
  replace ((a + 32 * b + 64 * c + 128 * d) mod 32) with a by lia.
  replace (a + 32 * b + 64 * c + 128 * d + (t - a) * 1) with (t + 32 * b + 64 * c + 128 * d) by lia.
  replace ((t + 32 * b + 64 * c + 128 * d) / 32 mod 2) with b by lia.
  replace (t + 32 * b + 64 * c + 128 * d + (w - b) * 32) with (t + 32 * w + 64 * c + 128 * d) by lia.
  replace ((t + 32 * w + 64 * c + 128 * d) / 64 mod 2) with c by lia. lia.
Qed.

Lemma write_frag_spec : forall m b lim f, mem_bytes m -> dfrag_fits f ->
  (lim <= b + 4 + zlen (df_text f) /\ write_frag m b lim f = (m, None)) \/
  (b + 4 + zlen (df_text f) < lim /\ exists m' j, write_frag m b lim f = (m', Some (b + 4 + zlen (df_text f))) /\
     wrote m m' b (frag_bytes j (frag_of_d f))).
Proof.
  intros m b lim f Hm (Ht & Hn). unfold write_frag.
  destruct (lim <=? b + 3 + (zlen (df_text f) + 1)) eqn:E; [left; split; [lia|reflexivity]|right; split; [lia|]].
  set (m3 := bf_store _ b 6 1 _).
  exists (store (store m3 (b + 1) (le_bytes 2 (zlen (df_text f) + 1))) (b + 3) (df_text f ++ [0])), (m b / 128 =? 1).
  split; [f_equal; f_equal; lia|].
  pose proof (Hm b) as Hb. unfold is_byte in Hb.
  unfold frag_bytes, frag_of_d. cbn [fr_type fr_dw fr_dp fr_text].
  apply (wrote_app m m3); [|change (zlen [_]) with 1; apply (wrote_app m3 (store m3 (b + 1) (le_bytes 2 (zlen (df_text f) + 1))))].
  - pose proof (number_range (df_type f)) as NR. rewrite <- number_same in *.
    assert (M3 : mem_bytes m3) by (unfold m3; repeat apply bf_store_bytes; auto; lia).
    split; [|split; [|exact M3]].
    + unfold at_. cbn [length load]. f_equal. unfold m3, bf_store. rewrite !store1_same.
      rewrite frag_byte by (try (destruct (df_dw f); lia); try (destruct (df_dp f); lia); lia).
      destruct (df_dw f), (df_dp f), (m b / 128 =? 1) eqn:E1; lia.
    + intros y Hy. change (zlen [_]) with 1 in Hy. unfold m3, bf_store. rewrite !store_outside by (change (zlen [_]) with 1; lia). reflexivity.
  - apply wrote_store; [unfold m3; repeat apply bf_store_bytes; auto; lia|apply le_bytes_is_byte].
  - rewrite le_bytes_zlen. replace (b + 1 + Z.of_nat 2) with (b + 3) by lia. apply wrote_store; [|now apply text_bytes].
    apply store_bytes; [|apply le_bytes_is_byte]. unfold m3; repeat apply bf_store_bytes; auto; lia.
Qed.

Lemma write_frags_spec : forall fs m b lim, mem_bytes m -> Forall dfrag_fits fs ->
  let size := zlen (frags_bytes [] (map frag_of_d fs)) in
  exists m' ob, write_frags m b lim fs = (m', ob) /\ mem_bytes m' /\ (forall y, y < b \/ lim <= y -> m' y = m y) /\
    match ob with
    | None => lim <= b + size
    | Some b' => b' = b + size /\ (fs <> [] -> b' < lim) /\
        exists js, wrote m m' b (frags_bytes js (map frag_of_d fs))
    end.
Proof.
  induction fs as [|f fs IH]; intros m b lim Hm HF size; cbn [write_frags].
  - exists m, (Some b). subst size. cbn [map frags_bytes]. change (zlen []) with 0. splits; auto; try lia; try congruence.
    exists []. split; [reflexivity|split; auto].
  - inversion HF as [|? ? F1 F2]; subst.
    assert (SZ : size = 4 + zlen (df_text f) + zlen (frags_bytes [] (map frag_of_d fs))).
    { subst size. cbn [map frags_bytes]. rewrite zlen_app, frag_zlen. cbn [tl hd]. reflexivity. }
    pose proof (zlen_nonneg _ (frags_bytes [] (map frag_of_d fs))). pose proof (zlen_nonneg _ (df_text f)).
    destruct (write_frag_spec m b lim f Hm F1) as [[L ->]|(L & m1 & j & -> & W)].
    + exists m, None. splits; auto. lia.
    + pose proof W as (W1 & W2 & W3). rewrite frag_zlen in W2. cbn [fr_text frag_of_d] in W2.
      destruct (IH m1 (b + 4 + zlen (df_text f)) lim W3 F2) as (m' & ob & E & M & F & C). rewrite E.
      exists m', ob. splits; auto.
      * intros y Hy. rewrite F by lia. apply W2. lia.
      * destruct ob as [b'|]; [|lia]. destruct C as (C1 & C2 & js & C3). split; [lia|]. split.
        -- intros _. destruct fs as [|f2 fs]; [|apply C2; discriminate].
           subst b'. cbn [map frags_bytes]. change (zlen []) with 0. lia.
        -- exists (j :: js). cbn [map frags_bytes hd tl]. apply (wrote_app m m1); auto.
           rewrite frag_zlen. cbn [fr_text frag_of_d]. rewrite Z.add_assoc. exact C3.
Qed.

(** Entries whose parts fit in their fields. *)
Definition entry_fits (e : dentry) : Prop :=
  0 <= de_level e < 256 /\ 0 <= de_line e < 2 ^ 32 /\ zlen (de_frags e) < 256 /\
  Forall nonzero_byte (de_file e) /\ de_fileLen e = zlen (de_file e) + 1 /\ de_fileLen e < 2 ^ 16 /\
  Forall dfrag_fits (de_frags e).

Definition bare (es : list dentry) : list meta := map (fun e => (mc_of e, [])) es.

Lemma entry_wf : forall e, entry_fits e -> meta_wf (mc_of e).
Proof.
  intros e (L & N & F & B & E & S & T). unfold meta_wf, mc_of.
  cbn [mc_numNibbles mc_numFrags mc_level mc_line mc_file mc_frags]. rewrite zlen_map.
  pose proof (zlen_nonneg _ (de_frags e)).
  assert (U : forall x, 0 <= to_u 8 x < 256) by (intro x; unfold to_u; change (2 ^ 8) with 256; lia).
  splits; auto; try apply U; try lia.
  - unfold to_u. change (2 ^ 8) with 256. apply Z.mod_small. lia.
  - apply Forall_map. eapply Forall_impl; [|exact T]. intros f Hf. exact Hf.
Qed.

Lemma write_entry_spec : forall e m b lim, mem_bytes m -> entry_fits e ->
  let size := zlen (meta_bytes (mc_of e, [])) in
  exists m' ob, write_entry m b lim e = (m', ob) /\ mem_bytes m' /\ (forall y, y < b \/ lim <= y -> m' y = m y) /\
    match ob with
    | None => lim <= b + size
    | Some b' => b' = b + size /\ b' < lim /\ exists js, wrote m m' b (meta_bytes (mc_of e, js))
    end.
Proof.
  intros e m b lim Hm (L & N & F & B & E & S & T) size.
  assert (SZ : size = 10 + zlen (de_file e) + zlen (frags_bytes [] (map frag_of_d (de_frags e)))).
  { subst size. rewrite meta_zlen. reflexivity. }
  pose proof (zlen_nonneg _ (frags_bytes [] (map frag_of_d (de_frags e)))). pose proof (zlen_nonneg _ (de_file e)).
  unfold write_entry. rewrite E. destruct (lim <=? b + 9 + (zlen (de_file e) + 1)) eqn:E1.
  { exists m, None. splits; auto. lia. }
  set (m6 := store _ (b + 9) _).
  set (head := [to_u 8 (de_nibbles e); to_u 8 (zlen (de_frags e)); de_level e] ++ le_bytes 4 (de_line e) ++ le_bytes 2 (zlen (de_file e) + 1)
    ++ (de_file e ++ [0])).
  assert (ZH : zlen head = 10 + zlen (de_file e)).
  { subst head. rewrite !zlen_app, !le_bytes_zlen. change (zlen [_; _; _]) with 3. change (zlen [0]) with 1. lia. }
  assert (W6 : wrote m m6 b head).
  { assert (U : forall x, is_byte (to_u 8 x)) by (intro x; unfold is_byte, to_u; change (2 ^ 8) with 256; lia).
    assert (M1 : mem_bytes (store m b [to_u 8 (de_nibbles e)])) by (apply store_bytes; auto).
    set (m1 := store m b [to_u 8 (de_nibbles e)]) in *.
    assert (M2 : mem_bytes (store m1 (b + 1) [to_u 8 (zlen (de_frags e))])) by (apply store_bytes; auto).
    set (m2 := store m1 (b + 1) [to_u 8 (zlen (de_frags e))]) in *.
    assert (M3 : mem_bytes (store m2 (b + 2) [to_u 8 (de_level e)])) by (apply store_bytes; auto).
    set (m3 := store m2 (b + 2) [to_u 8 (de_level e)]) in *.
    assert (M4 : mem_bytes (store m3 (b + 3) (le_bytes 4 (de_line e)))) by (apply store_bytes; auto using le_bytes_is_byte).
    set (m4 := store m3 (b + 3) (le_bytes 4 (de_line e))) in *.
    assert (M5 : mem_bytes (store m4 (b + 7) (le_bytes 2 (zlen (de_file e) + 1)))) by (apply store_bytes; auto using le_bytes_is_byte).
    set (m5 := store m4 (b + 7) (le_bytes 2 (zlen (de_file e) + 1))) in *.
    assert (U3 : to_u 8 (de_level e) = de_level e) by (unfold to_u; apply Z.mod_small; change (2 ^ 8) with 256; lia).
    unfold head. change [to_u 8 (de_nibbles e); to_u 8 (zlen (de_frags e)); de_level e] with
      ([to_u 8 (de_nibbles e)] ++ [to_u 8 (zlen (de_frags e))] ++ [de_level e]). rewrite <- !app_assoc.
    apply (wrote_app m m1); [apply wrote_store; auto|]. change (zlen [_]) with 1.
    apply (wrote_app m1 m2); [apply wrote_store; auto|]. change (zlen [_]) with 1. replace (b + 1 + 1) with (b + 2) by lia.
    apply (wrote_app m2 m3); [rewrite <- U3; apply wrote_store; auto|]. change (zlen [_]) with 1. replace (b + 2 + 1) with (b + 3) by lia.
    apply (wrote_app m3 m4); [apply wrote_store; auto using le_bytes_is_byte|]. rewrite le_bytes_zlen. replace (b + 3 + Z.of_nat 4) with (b + 7) by lia.
    apply (wrote_app m4 m5); [apply wrote_store; auto using le_bytes_is_byte|]. rewrite le_bytes_zlen. replace (b + 7 + Z.of_nat 2) with (b + 9) by lia.
    apply wrote_store; auto. now apply text_bytes. }
  pose proof W6 as (_ & F6 & M6). rewrite ZH in F6.
  destruct (write_frags_spec (de_frags e) m6 (b + 9 + zlen (de_file e) + 1) lim M6 T) as (m' & ob & EW & M & Fr & C). rewrite EW.
  exists m', ob. splits; auto.
  - intros y Hy. rewrite Fr by lia. apply F6. lia.
  - destruct ob as [b'|]; [|lia]. destruct C as (C1 & C2 & js & C3). split; [lia|]. split.
    + destruct (de_frags e) as [|f fs] eqn:EF; [|apply C2; discriminate].
      subst b'. cbn [map frags_bytes]. change (zlen []) with 0. lia.
    + exists js. replace (meta_bytes (mc_of e, js)) with (head ++ frags_bytes js (map frag_of_d (de_frags e))).
      2: { unfold meta_bytes, mc_of, head. cbn [fst snd mc_numNibbles mc_numFrags mc_level mc_line mc_file mc_frags].
           rewrite <- !app_assoc. reflexivity. }
      apply (wrote_app m m6); auto. rewrite ZH. replace (b + (10 + zlen (de_file e))) with (b + 9 + zlen (de_file e) + 1) by lia. exact C3.
Qed.

Lemma write_dict_spec : forall es m b lim, mem_bytes m -> Forall entry_fits es ->
  let size := zlen (metas_bytes (bare es)) in
  exists m' ob, write_dict m b lim es = (m', ob) /\ mem_bytes m' /\ (forall y, y < b \/ lim <= y -> m' y = m y) /\
    match ob with
    | None => es <> [] /\ lim <= b + size
    | Some b' => b' = b + size /\ (es <> [] -> b' < lim) /\
        exists D, map fst D = map mc_of es /\ wrote m m' b (metas_bytes D)
    end.
Proof.
  induction es as [|e es IH]; intros m b lim Hm HF size; cbn [write_dict].
  - exists m, (Some b). subst size. cbn [bare map]. change (zlen (metas_bytes [])) with 0. splits; auto; try lia; try congruence.
    exists []. split; [reflexivity|]. split; [reflexivity|split; auto].
  - inversion HF as [|? ? F1 F2]; subst.
    assert (SZ : size = zlen (meta_bytes (mc_of e, [])) + zlen (metas_bytes (bare es))).
    { subst size. unfold bare. cbn [map]. rewrite metas_cons, zlen_app. reflexivity. }
    pose proof (zlen_nonneg _ (metas_bytes (bare es))).
    destruct (write_entry_spec e m b lim Hm F1) as (m1 & ob1 & E1 & M1 & Fr1 & C1). rewrite E1.
    destruct ob1 as [b1|].
    + destruct C1 as (-> & L1 & js & W1).
      destruct (IH m1 (b + zlen (meta_bytes (mc_of e, []))) lim M1 F2) as (m' & ob & E & M & F & C). rewrite E.
      assert (ZM : zlen (meta_bytes (mc_of e, js)) = zlen (meta_bytes (mc_of e, []))).
      { rewrite !meta_zlen. cbn [fst snd]. now rewrite frags_zlen. }
      exists m', ob. splits; auto.
      * intros y Hy. pose proof (zlen_nonneg _ (meta_bytes (mc_of e, []))). rewrite F by lia. apply Fr1. lia.
      * destruct ob as [b'|]; [|split; [discriminate|lia]]. destruct C as (C1 & C2 & D & C3 & C4). split; [lia|]. split.
        -- intros _. destruct es as [|e2 es]; [|apply C2; discriminate].
           subst b'. cbn [bare map]. change (zlen (metas_bytes [])) with 0. lia.
        -- exists ((mc_of e, js) :: D). cbn [map fst]. split; [congruence|]. rewrite metas_cons.
           apply (wrote_app m m1); auto. now rewrite ZM.
    + exists m1, None. splits; auto; [discriminate|lia].
Qed.
