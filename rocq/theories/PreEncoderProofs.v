(** The encoder of the preprocessor version on messages of the generated record
    functions. *)
From Verif Require Import Base BaseProofs Packer PackerProofs LogHeader LogHeaderProofs Chars Fmt FmtProofs MicroCode Args ArgsProofs Printf Decode DecodeProofs
  Encoder Wire EncoderProofs Preproc GenCode GenSpec GenProofs GenRecord GenMessage PreEncoder.
Ltac Zify.zify_post_hook ::= Z.div_mod_to_equations.

(** ** The loop, for any compression functions *)

(** A staged entry. *)
Record amsg := AMsg { am_id : Z; am_ts : Z; am_bytes : list Z }.

Definition amsg_ok (x : amsg) : Prop :=
  0 <= am_id x < 2 ^ 32 /\ 0 <= am_ts x < 2 ^ 64 /\ 2 * zlen (am_bytes x) + 16 < 2 ^ 32 /\
  exists rest, am_bytes x = le_bytes 4 (am_id x) ++ le_bytes 4 (zlen (am_bytes x)) ++ le_bytes 8 (am_ts x) ++ rest.

(** What is asked of the compression function: it writes a body with [P]. *)
Definition squeezes (cf : Z -> mem -> Z -> mem -> Z -> cst) (P : list Z -> Prop) (x : amsg) : Prop :=
  forall min from mout o, load min from (length (am_bytes x)) = am_bytes x -> mem_bytes min -> mem_bytes mout ->
  let c := cf (am_id x) min (from + 16) mout o in
  exists body, P body /\ load (cs_mem c) o (length body) = body /\ cs_out c = o + zlen body /\
    (forall y, y < o \/ (cs_hi c <= y /\ cs_out c <= y) -> cs_mem c y = mout y) /\ mem_bytes (cs_mem c) /\
    o <= cs_hi c <= cs_out c + 7 /\ 2 * zlen body <= 3 * zlen (am_bytes x) - 26.

Definition squeezed (P : amsg -> list Z -> Prop) (x : amsg) (w : wmsg) : Prop :=
  w_id w = am_id x /\ w_ts w = am_ts x /\ P x (w_body w).

Lemma amsg_read : forall x min from, amsg_ok x -> load min from (length (am_bytes x)) = am_bytes x ->
  ue_fmtId min from = am_id x /\ ue_entrySize min from = zlen (am_bytes x) /\ ue_timestamp min from = am_ts x /\ 16 <= zlen (am_bytes x).
Proof.
  intros x min from (Hi & Ht & Hz & rest & E) H.
  pose proof (zlen_nonneg _ rest). pose proof (f_equal (@zlen Z) E) as Z1. rewrite !zlen_app, !le_bytes_zlen in Z1.
  set (n := zlen (am_bytes x)) in *. rewrite E in H.
  apply load_split in H. destruct H as [H1 H].
  apply load_split in H. destruct H as [H2 H].
  apply load_split in H. destruct H as [H3 H].
  repeat rewrite le_bytes_length in *. repeat rewrite le_bytes_zlen in *. change (Z.of_nat 4) with 4 in *. change (Z.of_nat 8) with 8 in *.
  unfold ue_fmtId, ue_entrySize, ue_timestamp. rewrite H1, H2.
  replace (from + 8) with (from + 4 + 4) by lia. rewrite H3.
  rewrite !le_val_le_bytes. change (256 ^ Z.of_nat 4) with (2 ^ 32). change (256 ^ Z.of_nat 8) with (2 ^ 64).
  rewrite !Z.mod_small by lia. splits; lia.
Qed.

Lemma squeeze_one : forall cf P x min from m p last h c, amsg_ok x -> squeezes cf (P x) x -> mem_bytes min -> mem_bytes m ->
  load min from (length (am_bytes x)) = am_bytes x ->
  h = compressLogHeader m p (am_id x) (am_ts x) last ->
  c = cf (am_id x) min (from + 16) (lh_mem h) (lh_pos h) ->
  exists w, squeezed P x w /\
    load (cs_mem c) p (length (wmsg_bytes last w)) = wmsg_bytes last w /\
    cs_out c = p + zlen (wmsg_bytes last w) /\
    (forall y, y < p \/ (lh_touched h <= y /\ cs_hi c <= y /\ cs_out c <= y) -> cs_mem c y = m y) /\
    mem_bytes (cs_mem c) /\
    p <= lh_touched h <= p + 2 * zlen (am_bytes x) + 16 /\
    p <= cs_hi c <= p + 2 * zlen (am_bytes x) + 16 /\
    2 * zlen (wmsg_bytes last w) <= 3 * zlen (am_bytes x).
Proof.
  intros cf P x min from m p last h c Hok Hsq Hmin Hm HL Eh Ec.
  destruct (amsg_read x min from Hok HL) as (_ & _ & _ & Z16).
  destruct Hok as (Hi & Ht & Hz & _).
  destruct (compressLogHeader_spec m p (am_id x) (am_ts x) last Hi (Hm p)) as (A1 & A2 & _ & A4 & A5).
  rewrite <- Eh in *. cbv zeta in *.
  assert (MH : mem_bytes (lh_mem h)) by (rewrite Eh; apply compressLogHeader_bytes; auto).
  destruct (Hsq min from (lh_mem h) (lh_pos h) HL Hmin MH) as (body & PB & LB & CO & CU & MB & CH & CS). rewrite <- Ec in *.
  pose proof (hbytes_zlen (am_id x) (am_ts x) last Hi) as HB. pose proof (zlen_nonneg _ body).
  exists (WMsg (am_id x) (am_ts x) body).
  assert (ZW : zlen (wmsg_bytes last (WMsg (am_id x) (am_ts x) body)) = zlen (hbytes (am_id x) (am_ts x) last) + zlen body).
  { unfold wmsg_bytes. cbn [w_id w_ts w_body]. rewrite zlen_app. lia. }
  split; [unfold squeezed; cbn [w_id w_ts w_body]; auto|]. split.
  { unfold wmsg_bytes. cbn [w_id w_ts w_body]. apply load_append.
    - rewrite <- A1 at 2. apply load_ext. intros y Hy. apply CU. unfold zlen in *. lia.
    - rewrite <- A2. exact LB. }
  split; [lia|]. split.
  { intros y Hy. rewrite CU by lia. apply A5. lia. }
  split; [exact MB|]. split; [lia|]. split; lia.
Qed.

(** Why the loop stopped in front of an entry of [size] bytes. *)
Definition astopped (size remaining space : Z) : Prop :=
  (remaining < size /\ size < STAGING_BUFFER_SIZE / 2) \/ space < 2 * size + 16.

Lemma squeeze_loop : forall cf P xs fuel min from rem last e e' rem' k,
  Forall amsg_ok xs -> Forall (fun x => squeezes cf (P x) x) xs -> mem_bytes min -> mem_bytes (e_mem e) -> e_wp e <= e_hi e <= e_end e ->
  load min from (length (concat (map am_bytes xs))) = concat (map am_bytes xs) ->
  rem <= zlen (concat (map am_bytes xs)) -> rem <= Z.of_nat fuel ->
  encode_loop (fun _ => true) cf fuel min from rem last e = (e', rem', k) ->
  exists n ws,
    (n <= length xs)%nat /\ k = Z.of_nat n /\
    Forall2 (squeezed P) (firstn n xs) ws /\
    rem' = rem - zlen (concat (map am_bytes (firstn n xs))) /\
    load (e_mem e') (e_wp e) (length (wmsgs_bytes last ws)) = wmsgs_bytes last ws /\
    e_wp e' = e_wp e + zlen (wmsgs_bytes last ws) /\
    e_base e' = e_base e /\ e_end e' = e_end e /\ e_ext e' = e_ext e /\
    e_hi e <= e_hi e' /\ e_wp e' <= e_hi e' <= e_end e' /\
    (forall y, y < e_wp e \/ e_hi e' <= y -> e_mem e' y = e_mem e y) /\
    mem_bytes (e_mem e') /\
    2 * zlen (wmsgs_bytes last ws) <= 3 * zlen (concat (map am_bytes (firstn n xs))) /\
    (0 < rem' -> exists x, nth_error xs n = Some x /\ astopped (zlen (am_bytes x)) rem' (e_space e')).
Proof.
  intros cf P xs. induction xs as [|x xs IH];
    intros fuel min from rem last e e' rem' k Hok Hsq Hmin Hm He HL Hrem Hfuel E.
  - cbn [map concat] in Hrem. rewrite zlen_nil in Hrem.
    assert (encode_loop (fun _ => true) cf fuel min from rem last e = (e, rem, 0)) as E0.
    { destruct fuel; [reflexivity|]. cbn [encode_loop]. replace (rem <=? 0) with true by lia. reflexivity. }
    rewrite E0 in E. assert (e' = e /\ rem' = rem /\ k = 0) as (-> & -> & ->) by (splits; congruence).
    exists 0%nat, []. cbn [firstn map concat wmsgs_bytes length load]. rewrite zlen_nil.
    splits; auto; try lia; constructor.
  - inversion Hok as [|? ? Ox Oxs]; subst. inversion Hsq as [|? ? Sx Sxs]; subst. clear Hok Hsq.
    set (b := am_bytes x) in *.
    assert (STOP : encode_loop (fun _ => true) cf fuel min from rem last e = (e, rem, 0) ->
      (0 < rem -> astopped (zlen b) rem (e_space e)) ->
      exists n ws,
    (n <= length (x :: xs))%nat /\ k = Z.of_nat n /\
    Forall2 (squeezed P) (firstn n (x :: xs)) ws /\
    rem' = rem - zlen (concat (map am_bytes (firstn n (x :: xs)))) /\
    load (e_mem e') (e_wp e) (length (wmsgs_bytes last ws)) = wmsgs_bytes last ws /\
    e_wp e' = e_wp e + zlen (wmsgs_bytes last ws) /\
    e_base e' = e_base e /\ e_end e' = e_end e /\ e_ext e' = e_ext e /\
    e_hi e <= e_hi e' /\ e_wp e' <= e_hi e' <= e_end e' /\
    (forall y, y < e_wp e \/ e_hi e' <= y -> e_mem e' y = e_mem e y) /\
    mem_bytes (e_mem e') /\
    2 * zlen (wmsgs_bytes last ws) <= 3 * zlen (concat (map am_bytes (firstn n (x :: xs)))) /\
    (0 < rem' -> exists x', nth_error (x :: xs) n = Some x' /\ astopped (zlen (am_bytes x')) rem' (e_space e'))).
    { intros E0 HS. rewrite E0 in E. assert (e' = e /\ rem' = rem /\ k = 0) as (-> & -> & ->) by (splits; congruence).
      exists 0%nat, []. cbn [firstn map concat wmsgs_bytes length load nth_error]. rewrite zlen_nil.
      splits; auto; try lia; try constructor. intros R. exists x. splits; auto. }
    cbn [map concat] in HL, Hrem. fold b in HL, Hrem. apply load_split in HL. destruct HL as [L1 L2].
    destruct (amsg_read x min from Ox L1) as (R1 & R2 & R3 & Zb). fold b in R2, L1, L2, Zb.
    rewrite zlen_app in Hrem.
    destruct fuel as [|fuel].
    { apply STOP; [reflexivity|lia]. }
    cbn [encode_loop] in STOP, E. cbv zeta in STOP, E.
    destruct (rem <=? 0) eqn:Er. { apply STOP; [reflexivity|lia]. }
    rewrite R1, R2, R3 in STOP, E. cbn [negb] in STOP, E.
    destruct ((rem <? zlen b) && (zlen b <? STAGING_BUFFER_SIZE / 2)) eqn:Eb.
    { apply STOP; [reflexivity|]. apply andb_prop in Eb. left. lia. }
    assert (Emax : to_u 32 (to_u 32 (2 * zlen b) + 16) = 2 * zlen b + 16).
    { assert (2 * zlen b + 16 < 2 ^ 32) by (apply Ox). rewrite (to_u_id 32 (2 * zlen b)) by lia. apply to_u_id. lia. }
    rewrite Emax in STOP, E.
    destruct (e_space e <? 2 * zlen b + 16) eqn:Es.
    { apply STOP; [reflexivity|]. right. lia. }
    clear STOP.
    set (h := compressLogHeader (e_mem e) (e_wp e) (am_id x) (am_ts x) last) in *.
    set (c := cf (am_id x) min (from + 16) (lh_mem h) (lh_pos h)) in *.
    set (e1 := Enc (cs_mem c) (e_base e) (cs_out c) (e_end e) (e_ext e)
                 (Z.max (Z.max (e_hi e) (lh_touched h)) (Z.max (cs_hi c) (cs_out c)))) in *.
    destruct (encode_loop (fun _ => true) cf fuel min (from + zlen b) (rem - zlen b) (am_ts x) e1) as [[e2 r2] k2] eqn:E2.
    assert (e' = e2 /\ rem' = r2 /\ k = 1 + k2) as (-> & -> & ->) by (splits; congruence). clear E.
    destruct (squeeze_one cf P x min from (e_mem e) (e_wp e) last h c Ox Sx Hmin Hm L1 eq_refl eq_refl)
      as (w & C1 & C2 & C3 & C4 & C5 & C6 & C7 & C8). fold b in C6, C7, C8.
    assert (e_space e = e_end e - e_wp e) as Esp by reflexivity.
    pose proof (zlen_nonneg _ (wmsg_bytes last w)).
    assert (H1 : e_wp e1 <= e_hi e1 <= e_end e1) by (cbn [e1 e_hi e_wp e_end]; lia).
    destruct (IH fuel min (from + zlen b) (rem - zlen b) (am_ts x) e1 e2 r2 k2)
      as (n & ws & I1 & I2 & I3 & I4 & I5 & I6 & I7 & I8 & I9 & I10 & I12 & I13 & I14 & I15 & I16);
      auto; try lia.
    exists (S n), (w :: ws).
    assert (Ew1 : e_wp e1 = e_wp e + zlen (wmsg_bytes last w)) by exact C3.
    assert (W : w_ts w = am_ts x) by apply C1.
    pose proof (zlen_nonneg _ (wmsgs_bytes (am_ts x) ws)).
    cbn [firstn map concat wmsgs_bytes nth_error length]. fold b. rewrite W. rewrite !zlen_app.
    splits; auto; try lia.
    + apply load_append.
      * rewrite <- C2 at 2. apply load_ext. intros y Hy. rewrite I13 by (unfold zlen in *; lia). reflexivity.
      * rewrite <- Ew1. exact I5.
    + cbn [e1 e_hi] in I10. lia.
    + intros y Hy. rewrite I13 by lia. cbn [e1 e_mem]. apply C4. cbn [e1 e_hi] in I10. lia.
Qed.

Lemma squeeze_with : forall cf P xs min from nbytes tid np e e' read k,
  Forall amsg_ok xs -> Forall (fun x => squeezes cf (P x) x) xs -> mem_bytes min -> mem_bytes (e_mem e) -> e_wp e <= e_hi e <= e_end e ->
  e_space e < 2 ^ 32 -> 0 <= tid < 2 ^ 32 ->
  load min from (length (concat (map am_bytes xs))) = concat (map am_bytes xs) -> 0 <= nbytes <= zlen (concat (map am_bytes xs)) ->
  encode_with (fun _ => true) cf e min from nbytes tid np = (e', read, k) ->
  (e_space e < 9 /\ e' = e /\ read = 0 /\ k = 0) \/
  exists n ws, 9 <= e_space e /\
    (n <= length xs)%nat /\ k = Z.of_nat n /\
    Forall2 (squeezed P) (firstn n xs) ws /\
    read = zlen (concat (map am_bytes (firstn n xs))) /\
    load (e_mem e') (e_wp e) (length (extent_bytes tid np ws)) = extent_bytes tid np ws /\
    e_wp e' = e_wp e + zlen (extent_bytes tid np ws) /\
    e_base e' = e_base e /\ e_end e' = e_end e /\
    e_hi e <= e_hi e' /\ e_wp e' <= e_hi e' <= e_end e' /\
    (forall y, y < e_wp e \/ e_hi e' <= y -> e_mem e' y = e_mem e y) /\
    mem_bytes (e_mem e') /\
    2 * zlen (extent_bytes tid np ws) <= 18 + 3 * read /\
    (read < nbytes -> exists x, nth_error xs n = Some x /\ astopped (zlen (am_bytes x)) (nbytes - read) (e_space e')).
Proof.
  intros cf P xs min from nbytes tid np e e' read k Hok Hsq Hmin Hm He Hsp Ht HL Hn E.
  unfold encode_with in E.
  destruct (encodeBufferExtentStart e tid np) as [e1|] eqn:E1.
  2:{ left. unfold encodeBufferExtentStart in E1. destruct (e_space e <? 9) eqn:Es.
      - assert (e' = e /\ read = 0 /\ k = 0) by (splits; congruence). intuition lia.
      - cbv zeta in E1. destruct (tid <? 16); discriminate. }
  right.
  destruct (extentStart_spec e tid np e1 Hm Ht He E1) as (X0 & X1 & X2 & X3 & X4 & X5 & X6 & X7 & X8 & X9 & X10 & X11).
  destruct (encode_loop (fun _ => true) cf (Z.to_nat nbytes) min from nbytes 0 e1) as [[e2 rem] k2] eqn:E2.
  destruct (squeeze_loop cf P xs (Z.to_nat nbytes) min from nbytes 0 e1 e2 rem k2 Hok Hsq Hmin X11 X9 HL ltac:(lia) ltac:(lia) E2)
    as (n & ws & I1 & I2 & I3 & I4 & I5 & I6 & I7 & I8 & I9 & I10 & I12 & I13 & I14 & I15 & I16).
  rewrite I9, X7 in E. cbv zeta in E.
  set (B := wmsgs_bytes 0 ws) in *. set (T := tid_bytes tid) in *.
  pose proof (zlen_nonneg _ B). pose proof (zlen_nonneg _ T).
  assert (LT : zlen T <= 4).
  { subst T. unfold tid_bytes. destruct (tid <? 16); [rewrite zlen_nil; lia|]. rewrite ubytes_zlen.
    pose proof (num_bytes_u32 tid Ht). lia. }
  assert (Esp : e_space e = e_end e - e_wp e) by reflexivity.
  assert (L4 : load (e_mem e2) (e_wp e + 1) 4 = le_bytes 4 (5 + zlen T)).
  { rewrite <- X2. apply load_ext. intros y Hy. apply I13. lia. }
  assert (SZ : to_u 32 (le_val (load (e_mem e2) (e_wp e + 1) 4) + to_u 32 (e_wp e2 - e_wp e1)) = 5 + zlen T + zlen B).
  { rewrite L4, le_val_le_bytes. rewrite Z.mod_small by (change (256 ^ Z.of_nat 4) with (2 ^ 32); lia).
    rewrite (to_u_id 32 (e_wp e2 - e_wp e1)) by lia. rewrite to_u_id by lia. lia. }
  rewrite SZ in E.
  set (m' := store (e_mem e2) (e_wp e + 1) (le_bytes 4 (5 + zlen T + zlen B))) in *.
  assert (e' = Enc m' (e_base e2) (e_wp e2) (e_end e2) (Some (e_wp e + 1)) (e_hi e2) /\ read = nbytes - rem /\ k = k2)
    as (-> & -> & ->) by (splits; congruence).
  cbn [e_mem e_wp e_base e_end e_hi].
  assert (LX : zlen (extent_bytes tid np ws) = 5 + zlen T + zlen B).
  { unfold extent_bytes. fold T B. rewrite !zlen_app, zlen_cons, zlen_nil, le_bytes_zlen. lia. }
  exists n, ws. rewrite LX. splits; auto; try lia.
  - unfold extent_bytes. fold T B. apply load_append.
    + cbn [length load]. f_equal. unfold m'. rewrite store_outside by (rewrite le_bytes_zlen; lia).
      rewrite I13 by lia. exact X1.
    + rewrite zlen_cons, zlen_nil. replace (e_wp e + (1 + 0)) with (e_wp e + 1) by lia. apply load_append.
      * apply load_store_same.
      * rewrite le_bytes_zlen. replace (e_wp e + 1 + Z.of_nat 4) with (e_wp e + 5) by lia. apply load_append.
        -- unfold m'. rewrite load_store_other by (rewrite le_bytes_zlen; lia).
           rewrite <- X3 at 2. apply load_ext. intros y Hy. apply I13. unfold zlen in *. lia.
        -- replace (e_wp e + 5 + zlen T) with (e_wp e1) by lia. unfold m'.
           rewrite load_store_other by (rewrite le_bytes_zlen; lia). exact I5.
  - intros y Hy. unfold m'. rewrite store_outside by (rewrite le_bytes_zlen; lia). rewrite I13 by lia. apply X10. lia.
  - apply store_bytes; auto using le_bytes_is_byte.
  - intros R. destruct I16 as (x & N1 & N3); [lia|]. exists x. splits; auto.
    replace (nbytes - (nbytes - rem)) with rem by lia. exact N3.
Qed.

(** ** The generated functions *)

Lemma read_val_ext : forall t m m' p, meq m m' -> read_val t m p = read_val t m' p.
Proof. intros t m m' p H. unfold read_val. destruct t; rewrite ?(meq_load m m') by auto; reflexivity. Qed.

Lemma read_prims_ext : forall idx types m m' p, meq m m' -> read_prims m p types idx = read_prims m' p types idx.
Proof.
  induction idx as [|i idx IH]; intros types m m' p H; [reflexivity|]. cbn [read_prims].
  destruct (param_type (nth i types NONE)); [|reflexivity]. rewrite (IH types m m') by auto. rewrite (read_val_ext _ m m') by auto. reflexivity.
Qed.

Lemma gen_compress_ext : forall types m m' re mout o, meq m m' -> gen_compress types m re mout o = gen_compress types m' re mout o.
Proof.
  intros types m m' re mout o H. unfold gen_compress. rewrite (read_prims_ext _ types m m') by auto.
  destruct (read_prims m' (re + 16) types (prim_idx types)) as [[xs a]|]; [|reflexivity].
  destruct (pack_prims _ _ _ _ _ _) as [[m1 out1] hi1]. destruct (string_idx types); [reflexivity|].
  rewrite !(meq_load m m') by auto. reflexivity.
Qed.

Lemma read_val_bytes : forall t min p, mem_bytes min -> pval_bytes (read_val t min p).
Proof.
  intros t min p H. destruct t as [t|n| | | |]; cbn [read_val pval_bytes]; try exact I; [|now apply load_bytes].
  unfold pval_of_int. destruct (it_signed t); [destruct (Nat.eqb (it_bytes t) 8)|]; exact I.
Qed.

Lemma read_prims_bytes : forall idx types min p xs a, mem_bytes min -> read_prims min p types idx = Some (xs, a) -> Forall pval_bytes xs.
Proof.
  induction idx as [|i idx IH]; intros types min p xs a H E; cbn [read_prims] in E.
  - injection E as <- <-. constructor.
  - destruct (param_type (nth i types NONE)) as [t|]; [|discriminate E].
    destruct (read_prims min (p + sizeof t) types idx) as [[ys b]|] eqn:E2; [|discriminate E]. injection E as <- <-.
    constructor; [now apply read_val_bytes|eauto].
Qed.

Lemma pack_prims_bytes : forall xs m nib i out hi m1 out1 hi1, mem_bytes m -> Forall pval_bytes xs ->
  pack_prims m nib i out hi xs = (m1, out1, hi1) -> mem_bytes m1.
Proof.
  induction xs as [|x xs IH]; intros m nib i out hi m1 out1 hi1 H F E; cbn [pack_prims] in E.
  - injection E as <- _ _. exact H.
  - inversion F; subst. cbv zeta in E. eapply IH; [| |exact E]; auto. apply write_nibble_bytes, pack_bytes; auto.
Qed.

Lemma gen_compress_bytes : forall types min re mout o c, mem_bytes min -> mem_bytes mout ->
  gen_compress types min re mout o = Some c -> mem_bytes (gr_mem c).
Proof.
  intros types min re mout o c H1 H2 E. unfold gen_compress in E.
  destruct (read_prims min (re + 16) types (prim_idx types)) as [[xs a]|] eqn:ER; [|discriminate E].
  destruct (pack_prims _ _ _ _ _ _) as [[m1 out1] hi1] eqn:EP.
  assert (mem_bytes m1) by (exact (pack_prims_bytes _ _ _ _ _ _ _ _ _ H2 (read_prims_bytes _ _ _ _ _ _ H1 ER) EP)).
  destruct (string_idx types); injection E as <-; cbn [gr_mem]; auto. apply store_bytes; auto. now apply load_bytes.
Qed.

(** Compressed, the arguments take no more room than they do in the entry. *)
Lemma prims_size : forall l, Forall wf_arg l ->
  zlen (map pval_of l) <= zlen (concat (map obj_bytes l)) /\ zlen (pvalues (map pval_of l)) <= zlen (concat (map obj_bytes l)).
Proof.
  induction 1 as [|a l H1 HF IH]; [cbn; lia|]. unfold pvalues in *. cbn [map concat]. rewrite zlen_cons, !zlen_app, obj_bytes_zlen.
  pose proof (pval_of_wf a H1) as Wa.
  destruct (pack_spec (fun _ => 0) 0 _ Wa) as (_ & _ & _ & _ & L & _).
  assert (zlen (pbytes (pval_of a)) <= sizeof (aty_of a)).
  { destruct a as [ti v|bs|q b|q b|q|el q b]; cbn [pval_of aty_of sizeof psize] in *; unfold zlen in *; try lia.
    destruct H1 as [Hi Hr]. destruct ti as [sg k]. cbn [it_bytes] in *.
    unfold pval_of_int in *. cbn [it_signed it_bytes] in *. destruct sg; [|cbn [psize] in *; lia].
    destruct (small_signed (Ity true k) v Hi Hr) as [K _]. exact K. }
  lia.
Qed.
