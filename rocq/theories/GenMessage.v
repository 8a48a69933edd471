(** From the generated record function to what the decompressor prints. *)
From Verif Require Import Base BaseProofs Packer PackerProofs LogHeader LogHeaderProofs Chars Fmt FmtProofs FrontFmt FrontFmtProofs Prop_FrontFmt
  Regex MicroCode MicroCodeProofs Args Printf ArgsProofs Prop_Args Decode DecodeProofs RingProofs Encoder
  Preproc PreprocProofs PreprocLit Prop_Preproc GenCode GenProofs GenRecord.

Ltac Zify.zify_post_hook ::= Z.div_mod_to_equations.

Notation prim_type := (fun t => negb (isStringType t)).

(** ** Facts on related arguments *)

Lemma related_len : forall w ks ts args args', related w ks ts args args' -> length ts = length args' /\ length ks = length args' /\ length args = length args'.
Proof.
  intros w ks. induction ks as [|k ks IH]; intros [|t ts] [|a args] [|a' args'] H; cbn [related] in H; try contradiction; auto.
  destruct H as [_ H]. destruct (IH _ _ _ H) as (A & B & C). cbn [length]. lia.
Qed.

Lemma related_convert : forall w ks ts args args', related w ks ts args args' -> convert_all w ts args = Some args'.
Proof.
  intros w ks. induction ks as [|k ks IH]; intros [|t ts] [|a args] [|a' args'] H; cbn [related] in H; try contradiction; auto.
  destruct H as [(ty & P & C & _) H]. cbn [convert_all]. rewrite P, C, (IH _ _ _ H). reflexivity.
Qed.

Lemma related_fine : forall w ks ts args args', related w ks ts args args' -> Forall class_ok ks -> Forall2 arg_fine ks args'.
Proof.
  intros w ks. induction ks as [|k ks IH]; intros [|t ts] [|a args] [|a' args'] H HC; cbn [related] in H; try contradiction; [constructor|].
  destruct H as [(ty & _ & _ & _ & Wf & Sf & Is & _ & St) H]. inversion HC; subst.
  constructor; [|eapply IH; eauto]. unfold arg_fine. splits; auto. intro X. now rewrite Is.
Qed.

Lemma related_ok : forall w ks ts args args', related w ks ts args args' -> Forall class_ok ks ->
  Forall2 (fun k a => k = KWidth \/ k = KPrec -> forall n, take_int (promote a) = Some n -> 0 <= n) ks args ->
  Forall2 arg_ok ks args'.
Proof.
  intros w ks. induction ks as [|k ks IH]; intros [|t ts] [|a args] [|a' args'] H HC HN; cbn [related] in H; try contradiction; [constructor|].
  destruct H as [(ty & _ & _ & _ & Wf & Sf & Is & _ & St) H]. inversion HC; inversion HN; subst.
  constructor; [|eapply IH; eauto]. unfold arg_ok. splits; auto.
  - intro X. now rewrite Is.
  - intros X n T. destruct (St X) as (E & _). rewrite E in T. eauto.
Qed.

Lemma related_prims : forall w ks ts args args', related w ks ts args args' -> Forall class_ok ks ->
  map (fun t => param_type t) (selb prim_type ts ts) = map (fun a => Some (aty_of a)) (selb prim_type ts args') /\
  Forall wf_arg (selb prim_type ts args') /\
  map pval_of (selb prim_type ts args') = pvals (map report ks) args'.
Proof.
  intros w ks. induction ks as [|k ks IH]; intros [|t ts] [|a args] [|a' args'] H HC; cbn [related] in H; try contradiction; [repeat split; constructor|].
  destruct H as [(ty & P & _ & T & Wf & _ & _ & Is & _) H]. inversion HC; subst.
  destruct (IH _ _ _ H ltac:(auto)) as (A & B & C).
  cbn [selb map pvals]. rewrite report_strp by auto. rewrite Is.
  destruct (is_strk k); cbn [negb map]; auto. rewrite A, C, P. splits; auto.
Qed.

Lemma sizes_sum : forall (l : list arg) (tl : list ftype), map (fun t => param_type t) tl = map (fun a => Some (aty_of a)) l ->
  fold_right Z.add 0 (map (fun t => match param_type t with Some t => sizeof t | None => 0 end) tl) = zlen (concat (map obj_bytes l)).
Proof.
  induction l as [|a l IH]; intros [|t tl] H; try discriminate H; [reflexivity|].
  cbn [map fold_right concat] in *. assert (E : param_type t = Some (aty_of a)) by congruence.
  rewrite E, zlen_app, obj_bytes_zlen, IH by congruence. reflexivity.
Qed.

Lemma prim_sizes_eq : forall w ks ts args args', related w ks ts args args' -> Forall class_ok ks ->
  prim_sizes ts = zlen (concat (map obj_bytes (selb prim_type ts args'))).
Proof.
  intros w ks ts args args' H HC. destruct (related_prims _ _ _ _ _ H HC) as (A & _ & _).
  rewrite <- (sizes_sum _ _ A). unfold prim_sizes. rewrite prim_idx_from.
  rewrite <- (idx_types prim_type ts). rewrite map_map. reflexivity.
Qed.

(** ** Record *)

Lemma store_swap : forall m a x b y, a + zlen x <= b \/ b + zlen y <= a ->
  meq (store (store m a x) b y) (store (store m b y) a x).
Proof.
  intros m a x b y H z. unfold store.
  destruct ((a <=? z) && (z <? a + zlen x)) eqn:E1, ((b <=? z) && (z <? b + zlen y)) eqn:E2; auto. lia.
Qed.

Lemma header_store : forall m p x y z, zlen x = 4 -> zlen y = 4 ->
  meq (store (store (store m p x) (p + 8) z) (p + 4) y) (store m p (x ++ y ++ z)).
Proof.
  intros m p x y z Hx Hy. pose proof (zlen_nonneg _ z).
  apply meq_trans with (1 := store_swap (store m p x) (p + 8) z (p + 4) y ltac:(lia)).
  apply meq_trans with (store (store m p (x ++ y)) (p + 8) z).
  - apply store_meq. replace (p + 4) with (p + zlen x) by lia. apply store_app.
  - replace (p + 8) with (p + zlen (x ++ y)) by (rewrite zlen_app; lia). rewrite app_assoc. apply store_app.
Qed.

(** Fragments without conversions. *)
Lemma decls_none : forall gs fs, Forall2 fragment_of gs fs -> convs (concat gs) = [] ->
  forall k args, strlen_decls fs k args = Some [] /\ arg_types fs = [].
Proof.
  intros gs fs H. induction H as [|g f gs fs Hg HG IH]; intros E k args; [auto|].
  cbn [concat] in E. rewrite convs_app in E. apply app_eq_nil in E. destruct E as [E1 E2].
  destruct Hg as [_ Hg]. rewrite E1 in Hg. destruct Hg as (Hg & _). cbn [strlen_decls]. rewrite Hg. cbn [isStringType].
  rewrite arg_types_cons. unfold frag_types. rewrite Hg. apply IH. exact E2.
Qed.

Definition entry_bytes (id ts : Z) (prims strings : list Z) : list Z :=
  le_bytes 4 id ++ le_bytes 4 (to_u 32 (zlen prims + zlen strings + 16)) ++ le_bytes 8 ts ++ prims ++ strings.

Lemma gen_record_spec : forall widen gs fs args0 args m p id ts, Forall2 fragment_of gs fs ->
  (convs (concat gs) <> [] -> Forall (fun g => convs g <> []) gs) ->
  fmt_ok (concat gs) = true -> stored_ok (concat gs) = true -> Forall2 arg_fine (params (concat gs)) args ->
  related widen (params (concat gs)) (arg_types fs) args0 args ->
  let prims := concat (map obj_bytes (selb prim_type (arg_types fs) args)) in
  let strings := strings_image (map full (params (concat gs))) None args in
  exists r, gen_record m p id ts fs args = Some r /\ lr_alloc r = zlen prims + zlen strings + 16 /\
    lr_end r = p + lr_alloc r /\ meq (lr_mem r) (store m p (entry_bytes id ts prims strings)).
Proof.
  intros widen gs fs args0 args m p id ts HG HN Hok Hst HA HR prims strings.
  assert (HC : Forall class_ok (params (concat gs))).
  { clear - HA. induction HA; constructor; auto. destruct H as (_ & _ & H & _). exact H. }
  assert (D : exists lens, strlen_decls fs 0 args = Some lens /\
    map fst lens = idx_from isStringType [] (arg_types fs) /\
    Forall2 fits (selb isStringType (arg_types fs) args) (map snd lens) /\
    stored (selb isStringType (arg_types fs) args) (map snd lens) = strings).
  { subst strings. destruct (convs (concat gs)) as [|sp r] eqn:EC.
    - destruct (decls_none gs fs HG EC 0%nat args) as [D1 D2]. exists []. rewrite D1, D2.
      rewrite (params_lits _ EC). cbn. splits; auto.
    - exact (decls_spec widen gs fs HG [] [] args0 args None eq_refl (HN ltac:(congruence)) Hok Hst HA HR). }
  destruct D as (lens & D1 & D2 & D3 & D4).
  destruct (related_len _ _ _ _ _ HR) as (L1 & L2 & L3).
  assert (NL : map (fun i => len_of i lens) (idx_from isStringType [] (arg_types fs)) = map Some (map snd lens)).
  { rewrite <- D2. apply len_of_decls. rewrite D2. apply idx_nodup. }
  pose proof (idx_map isStringType (arg_types fs) args [] [] L1 eq_refl) as IS.
  pose proof (idx_map prim_type (arg_types fs) args [] [] L1 eq_refl) as IP. cbn [app] in IS, IP.
  unfold gen_record. rewrite D1, string_idx_from, prim_idx_from.
  rewrite (str_sizes_eq _ _ _ _ NL D3), D4.
  rewrite (prim_sizes_eq _ _ _ _ _ HR HC). fold prims.
  set (m3 := store (store (store m p _) _ _) _ _).
  destruct (record_prims_eq _ _ m3 (p + 16) args IP) as (m4 & R4 & M4). rewrite R4. fold prims in R4, M4 |- *.
  destruct (record_strs_eq _ _ _ lens m4 (p + 16 + zlen prims) args IS NL D3) as (m5 & R5 & M5). rewrite D4 in R5, M5. rewrite R5.
  eexists. split; [reflexivity|]. cbn [lr_alloc lr_end lr_mem]. split; [lia|]. split; [lia|].
  apply meq_trans with (1 := M5).
  apply meq_trans with (store (store m3 (p + 16) prims) (p + 16 + zlen prims) strings); [now apply store_meq|].
  apply meq_trans with (1 := store_app _ _ _ _).
  unfold entry_bytes. set (h := le_bytes 4 id ++ le_bytes 4 (to_u 32 (zlen prims + zlen strings + 16)) ++ le_bytes 8 ts).
  replace (le_bytes 4 id ++ _) with (h ++ prims ++ strings) by (subst h; now rewrite <- !app_assoc).
  apply meq_trans with (store (store m p h) (p + zlen h) (prims ++ strings)); [|apply store_app].
  assert (HZ : zlen h = 16) by (subst h; rewrite !zlen_app, !le_bytes_zlen; reflexivity). rewrite HZ.
  apply store_meq. subst m3 h. apply header_store; apply le_bytes_zlen.
Qed.

(** ** Compress *)

Lemma read_prims_eq : forall idx l min b types,
  map (fun i => param_type (nth i types NONE)) idx = map (fun a => Some (aty_of a)) l -> Forall wf_arg l ->
  load min b (length (concat (map obj_bytes l))) = concat (map obj_bytes l) ->
  read_prims min b types idx = Some (map pval_of l, b + zlen (concat (map obj_bytes l))).
Proof.
  induction idx as [|i idx IH]; intros [|a l] min b types H W L; try discriminate H.
  - cbn [read_prims map concat]. rewrite zlen_nil, Z.add_0_r. reflexivity.
  - cbn [map] in H. assert (E : param_type (nth i types NONE) = Some (aty_of a)) by congruence.
    cbn [read_prims map concat] in *. rewrite E. inversion W; subst. apply load_split in L. destruct L as [L1 L2].
    rewrite obj_bytes_zlen in L2.
    rewrite (IH l min (b + sizeof (aty_of a)) types ltac:(congruence) ltac:(auto) L2).
    rewrite read_val_obj by auto. rewrite zlen_app, obj_bytes_zlen. f_equal. f_equal. lia.
Qed.

Lemma pack_prims_seq : forall xs m nib i out hi, pack_prims m nib i out hi xs = pack_seq m nib i out hi xs.
Proof. induction xs as [|x xs IH]; intros; [reflexivity|]. cbn [pack_prims pack_seq]. apply IH. Qed.

Lemma selb_zlen : forall {A B} f ts (l : list A) (l' : list B), length ts = length l -> length ts = length l' ->
  zlen (selb f ts l) = zlen (selb f ts l').
Proof.
  intros A B f. induction ts as [|t ts IH]; intros [|a l] [|b l'] H1 H2; try discriminate H1; try discriminate H2; [reflexivity|].
  cbn [selb]. specialize (IH l l' ltac:(cbn in H1; lia) ltac:(cbn in H2; lia)). destruct (f t); rewrite ?zlen_cons; lia.
Qed.

Lemma idx_none : forall f ts pre, idx_from f pre ts = [] -> Forall (fun t => f t = false) ts.
Proof.
  intros f. induction ts as [|t ts IH]; intros pre H; constructor; rewrite idx_from_cons in H; apply app_eq_nil in H; destruct H as [H1 H2].
  - destruct (f t); [discriminate H1|reflexivity].
  - exact (IH _ H2).
Qed.

Lemma no_strings_image : forall w ks ts args args' dyn, related w ks ts args args' ->
  Forall (fun t => isStringType t = false) ts -> strings_image (map full ks) dyn args' = [].
Proof.
  intros w ks. induction ks as [|k ks IH]; intros [|t ts] [|a args] [|a' args'] dyn H F; cbn [related] in H; try contradiction; auto.
  destruct H as [(ty & _ & _ & _ & _ & _ & _ & Is & _) H]. inversion F as [|? ? F1 F2]; subst. rewrite F1 in Is.
  destruct k; try discriminate Is; cbn [map full strings_image]; eapply IH; eauto.
Qed.

Lemma gen_compress_spec : forall widen ks types args0 args min re mout o id ts,
  related widen ks types args0 args -> Forall class_ok ks ->
  let prims := concat (map obj_bytes (selb prim_type types args)) in
  let strings := strings_image (map full ks) None args in
  let xs := pvals (map report ks) args in
  load min re (length (entry_bytes id ts prims strings)) = entry_bytes id ts prims strings ->
  zlen prims + zlen strings + 16 < 2 ^ 32 ->
  zlen (prim_idx types) = zlen xs /\
  exists c, gen_compress types min re mout o = Some c /\
    block_at (gr_mem c) o xs /\
    load (gr_mem c) (o + (zlen xs + 1) / 2 + zlen (pvalues xs)) (length strings) = strings /\
    gr_out c = o + (zlen xs + 1) / 2 + zlen (pvalues xs) + zlen strings /\
    o <= gr_hi c <= gr_out c + 7 /\
    (forall y, y < o \/ (gr_hi c <= y /\ gr_out c <= y) -> gr_mem c y = mout y).
Proof.
  intros widen ks types args0 args min re mout o id ts HR HC prims strings xs HL HS.
  destruct (related_len _ _ _ _ _ HR) as (L1 & L2 & L3).
  destruct (related_prims _ _ _ _ _ HR HC) as (P1 & P2 & P3). fold xs in P3.
  assert (NZ : zlen (prim_idx types) = zlen xs).
  { rewrite <- P3, zlen_map. rewrite (selb_zlen prim_type types args types L1 eq_refl), <- idx_types, zlen_map. reflexivity. }
  split; [exact NZ|].
  pose proof (zlen_nonneg _ prims). pose proof (zlen_nonneg _ strings). pose proof (zlen_nonneg _ xs).
  pose proof (zlen_nonneg _ (pvalues xs)).
  unfold entry_bytes in HL. apply load_split in HL. destruct HL as [_ HL]. apply load_split in HL. destruct HL as [HL1 HL].
  apply load_split in HL. destruct HL as [_ HL]. apply load_split in HL. destruct HL as [HL2 HL3].
  rewrite !le_bytes_length in HL1. rewrite !le_bytes_zlen in *.
  replace (re + Z.of_nat 4 + Z.of_nat 4 + Z.of_nat 8) with (re + 16) in * by lia.
  unfold gen_compress. rewrite NZ, prim_idx_from.
  rewrite (read_prims_eq _ (selb prim_type types args) min (re + 16) types); auto.
  2: { rewrite <- P1, <- idx_types, map_map. reflexivity. }
  fold prims. rewrite P3, pack_prims_seq.
  destruct (pack_seq mout o 0 (o + (zlen xs + 1) / 2) o xs) as [[m1 out1] hi1] eqn:EP.
  pose proof (pvals_wf (map report ks) args) as Wx. fold xs in Wx.
  assert (WA : Forall wf_pval xs) by (rewrite <- P3; clear - P2; induction P2; constructor; auto; now apply pval_of_wf).
  destruct (pack_seq_block _ _ _ _ _ _ _ WA EP) as [B1 B2].
  assert (HB : o + (0 + zlen xs + 1) / 2 <= o + (zlen xs + 1) / 2) by lia.
  pose proof (pack_seq_spec _ _ _ _ _ _ _ _ _ WA (Z.le_refl 0) HB EP) as (S1 & _ & _ & _ & S5 & S6).
  rewrite string_idx_from. destruct (idx_from isStringType [] types) as [|i0 r0] eqn:EI.
  - eexists. split; [reflexivity|]. cbn [gr_mem gr_out gr_hi].
    assert (ES : strings = []) by (eapply no_strings_image; [exact HR|now apply idx_none in EI]).
    rewrite ES in *. cbn [length]. rewrite zlen_nil, Z.add_0_r in *. splits; auto; try lia.
    intros y Hy. apply S6. lia.
  - rewrite (prim_sizes_eq _ _ _ _ _ HR HC). fold prims.
    replace (re + 4) with (re + Z.of_nat 4) by lia. rewrite HL1, le_val_le_bytes.
    assert (EE : to_u 64 (to_u 32 (zlen prims + zlen strings + 16) mod 256 ^ Z.of_nat 4 - zlen prims - 16) = zlen strings).
    { change (256 ^ Z.of_nat 4) with (2 ^ 32). rewrite (to_u_id 32) by lia. rewrite Z.mod_small by lia. rewrite to_u_id by lia. lia. }
    rewrite EE. eexists. split; [reflexivity|]. cbn [gr_mem gr_out gr_hi].
    replace (Z.to_nat (zlen strings)) with (length strings) by (unfold zlen; lia).
    rewrite HL3. splits; auto; try lia.
    + destruct B1 as [B1 B3]. split.
      * eapply nibbles_from_ext; [|exact B1]. intros y Hy. rewrite pcodes_zlen in Hy.
        replace ((zlen xs + (if true then 1 else 2)) / 2) with ((zlen xs + 1) / 2) in Hy by reflexivity.
        apply store_outside. lia.
      * rewrite load_store_disjoint; [exact B3|]. unfold zlen in *. lia.
    + rewrite <- B2. apply load_store_same.
    + intros y Hy. rewrite store_outside by lia. apply S6. lia.
Qed.

(** ** Unpacking *)

Lemma param_prim : forall t ty, param_type t = Some ty -> isStringType t = false ->
  (exists s n, ty = TyInt (Ity s n) /\ (n = 1 \/ n = 2 \/ n = 4 \/ n = 8)%nat) \/ ty = TyFlt 8 \/ ty = TyFlt 16 \/ ty = TyVoid.
Proof.
  intros [] ty H S; cbn in H, S; try discriminate H; try discriminate S; apply some_inj in H; subst ty; auto; left; eexists; eexists; (split; [reflexivity|lia]).
Qed.

Definition nb_at (nibs i in_ e : Z) : nibbler := Nibbler (nibs + i / 2) (Z.even i) in_ e.

Lemma nb_code : forall m nibs i in_ e, nibbler_code m (nb_at nibs i in_ e) = nibble_at m nibs i.
Proof. reflexivity. Qed.

Lemma nb_advance : forall nibs i in_ e p, nibbler_advance (nb_at nibs i in_ e) p = nb_at nibs (i + 1) p e.
Proof.
  intros. unfold nibbler_advance, nb_at. cbn [nb_first nb_pos nb_end].
  rewrite Z.even_add. change (Z.even 1) with false.
  pose proof (Zeven_mod i). rewrite H. destruct (Zeq_bool (i mod 2) 0) eqn:E.
  - apply Zeq_bool_eq in E. cbn [negb Bool.eqb]. f_equal. lia.
  - apply Zeq_bool_neq in E. cbn [negb Bool.eqb]. f_equal. lia.
Qed.

Lemma unpack_as_spec : forall t a m nibs i in_ e xs, param_type t = Some (aty_of a) -> isStringType t = false -> wf_arg a ->
  nibbler_at m (nb_at nibs i in_ e) (pval_of a :: xs) ->
  exists p, unpack_as (aty_of a) m in_ (nibble_at m nibs i) = Some (promote a, p) /\ nibbler_at m (nb_at nibs (i + 1) p e) xs.
Proof.
  intros t a m nibs i in_ e xs HP HS Hw HN. pose proof (pval_of_wf a Hw) as W.
  destruct (nibbler_step m _ _ _ W HN) as (R & C & L & N). rewrite nb_code in C. rewrite nb_advance in N. cbn [nb_at nb_cur] in L, N.
  destruct (param_prim _ _ HP HS) as [(s & n & E & Hn)|[E|[E|E]]];
    destruct a as [t0 v|bs|p buf|p buf|p|el p buf]; cbn [aty_of] in E; try discriminate E.
  - assert (t0 = Ity s n) as -> by congruence. cbn [aty_of unpack_as pval_of promote wf_arg] in *. destruct Hw as [_ Hr].
    destruct (pint_of_int (Ity s n) v ltac:(cbn; lia)) as (w & P1 & P2). unfold promoted_bytes in P2. cbn [it_bytes] in P2.
    rewrite C. rewrite Z.mod_small by (assert (1 <= pcode (pval_of_int (Ity s n) v) <= 15) by (apply pcode_int_range; congruence); lia).
    rewrite (unpack_int_spec (Ity s n) m in_ _ v w W P1) by (auto; cbn; lia).
    rewrite cast_id by (auto; cbn; lia). eexists. split; [reflexivity|exact N].
  - assert (Hl : length bs = 8%nat) by congruence. cbn [aty_of unpack_as pval_of promote] in *. rewrite Hl. cbn [unpack_as].
    destruct (getNext_float_at 8 m (nb_at nibs i in_ e) bs xs (F64 bs) ltac:(auto) W) as (nb' & G & N1 & N2); auto.
    { unfold pflt, zlen. rewrite Hl. reflexivity. }
    unfold getNext_float in G. rewrite R, nb_code in G. cbn [nb_at nb_cur] in G. change (Z.of_nat 8) with 8.
    destruct (unpack_float 8 m in_ (nibble_at m nibs i)) as [[f p]|]; [|discriminate G].
    assert (f = F64 bs /\ nb' = nb_at nibs (i + 1) p e) as (-> & ->) by (split; [congruence|rewrite <- (nb_advance nibs i in_); unfold nb_at in *; congruence]).
    exists p. unfold zlen. rewrite Hl. split; [reflexivity|exact N1].
  - assert (Hl : length bs = 16%nat) by congruence. cbn [aty_of unpack_as pval_of promote] in *. rewrite Hl. cbn [unpack_as].
    destruct (getNext_float_at 16 m (nb_at nibs i in_ e) bs xs (F80 bs) ltac:(auto) W) as (nb' & G & N1 & N2); auto.
    { unfold pflt, zlen. rewrite Hl. reflexivity. }
    unfold getNext_float in G. rewrite R, nb_code in G. cbn [nb_at nb_cur] in G. change (Z.of_nat 16) with 16.
    destruct (unpack_float 16 m in_ (nibble_at m nibs i)) as [[f p]|]; [|discriminate G].
    assert (f = F80 bs /\ nb' = nb_at nibs (i + 1) p e) as (-> & ->) by (split; [congruence|rewrite <- (nb_advance nibs i in_); unfold nb_at in *; congruence]).
    exists p. unfold zlen. rewrite Hl. split; [reflexivity|exact N1].
  - cbn [aty_of unpack_as pval_of promote wf_arg] in *. unfold unpack_ptr.
    rewrite C. rewrite Z.mod_small by (assert (1 <= pcode (PPtr p) <= 15) by (apply pcode_int_range; [exact W|discriminate]); lia).
    rewrite (unpack_int_spec (Ity false 8) m in_ (PPtr p) p 8 W eq_refl) by (auto; cbn; lia).
    rewrite cast_id; [|cbn; lia|exact Hw]. eexists. split; [reflexivity|exact N].
Qed.

(** What the generated decompression function hands to printf. *)
Definition vstr (lim : option Z) (a : arg) (v : va) : Prop :=
  match a with
  | AStr _ buf => exists q s, visible lim buf = Some s /\ v = VaPtr q (PoChars (s ++ [0]))
  | AWStr _ buf => exists q s, visible lim buf = Some s /\ v = VaPtr q (PoWide (s ++ [0]))
  | _ => False
  end.
Fixpoint vals (ks : list pclass) (dyn : option Z) (args : list arg) (vs : list va) : Prop :=
  match ks, args, vs with
  | [], [], [] => True
  | k :: ks, a :: r, v :: w =>
    match k with
    | KStr lim => vstr lim a v /\ vals ks dyn r w
    | KStrDyn => vstr dyn a v /\ vals ks dyn r w
    | KPrec => v = promote a /\ vals ks (match take_int (promote a) with
                                         | Some n => if n <? 0 then None else Some n
                                         | None => None end) r w
    | _ => v = promote a /\ vals ks dyn r w
    end
  | _, _, _ => False
  end.

(** Parameters put in order again. *)
Fixpoint merge (ts : list ftype) (pv sv : list va) : option (list va) :=
  match ts with
  | [] => Some []
  | t :: ts =>
    if isStringType t then match sv with v :: sv => option_map (cons v) (merge ts pv sv) | [] => None end
    else match pv with v :: pv => option_map (cons v) (merge ts pv sv) | [] => None end
  end.

Lemma val_of_skip : forall l l' i, ~ In i (map fst l) -> val_of i (l ++ l') = val_of i l'.
Proof.
  induction l as [|[j v] l IH]; intros l' i H; [reflexivity|]. cbn [app val_of map fst] in *.
  destruct (Nat.eqb_spec i j); [subst; exfalso; apply H; now left|]. apply IH. intro X. apply H. now right.
Qed.

Lemma in_combine_idx : forall f pre ts (pv : list va) i, In i (map fst (combine (idx_from f pre ts) pv)) -> (length pre <= i)%nat.
Proof.
  intros f pre ts pv i H. apply in_map_iff in H. destruct H as ([j v] & E & H). cbn [fst] in E. subst j.
  apply in_combine_l in H. now apply idx_ge in H.
Qed.

Lemma merge_vals : forall ts pre pv sv vs, merge ts pv sv = Some vs ->
  all_some (map (fun i => val_of i (combine (idx_from prim_type pre ts) pv ++ combine (idx_from isStringType pre ts) sv))
    (seq (length pre) (length ts))) = Some vs.
Proof.
  induction ts as [|t ts IH]; intros pre pv sv vs H; [exact H|].
  rewrite !idx_from_cons. cbn [merge] in H. cbn [length seq map all_some].
  assert (NI : forall f (l : list va), ~ In (length pre) (map fst (combine (idx_from f (pre ++ [t]) ts) l))).
  { intros f l X. apply in_combine_idx in X. rewrite app_length in X. cbn in X. lia. }
  assert (EQ : forall l l', (forall i, i <> length pre -> val_of i l = val_of i l') ->
    map (fun i => val_of i l) (seq (S (length pre)) (length ts)) = map (fun i => val_of i l') (seq (S (length pre)) (length ts))).
  { intros l l' X. apply map_ext_in. intros i Hi. apply in_seq in Hi. apply X. lia. }
  assert (SL : S (length pre) = length (pre ++ [t])) by (rewrite app_length; cbn; lia).
  destruct (isStringType t) eqn:ET; cbn [negb app].
  - destruct sv as [|v sv]; [discriminate H|]. destruct (merge ts pv sv) as [w|] eqn:EM; [|discriminate H].
    cbn [option_map combine] in *. apply some_inj in H. subst vs.
    rewrite val_of_skip by apply NI. cbn [val_of]. rewrite Nat.eqb_refl.
    erewrite EQ. 2: { intros i Hi. instantiate (1 := combine (idx_from prim_type (pre ++ [t]) ts) pv ++ combine (idx_from isStringType (pre ++ [t]) ts) sv).
      revert Hi. generalize (combine (idx_from prim_type (pre ++ [t]) ts) pv). induction l as [|[j u] l IHl]; intro Hi; cbn [app val_of].
      - destruct (Nat.eqb_spec i (length pre)); [congruence|reflexivity].
      - destruct (Nat.eqb i j); auto. }
    rewrite SL, (IH _ _ _ _ EM). reflexivity.
  - destruct pv as [|v pv]; [discriminate H|]. destruct (merge ts pv sv) as [w|] eqn:EM; [|discriminate H].
    cbn [option_map combine app] in *. apply some_inj in H. subst vs. cbn [val_of]. rewrite Nat.eqb_refl.
    erewrite map_ext_in. 2: { intros i Hi. apply in_seq in Hi. cbv beta. destruct (Nat.eqb_spec i (length pre)); [lia|reflexivity]. }
    rewrite SL, (IH _ _ _ _ EM). reflexivity.
Qed.

(** Reading everything back. *)
Lemma unpack_spec : forall w ks ts args0 args pre m nibs i in_ e str lim dyn,
  related w ks ts args0 args -> Forall2 arg_fine ks args -> (forall n, dyn = Some n -> 0 <= n) ->
  nibbler_at m (nb_at nibs i in_ e) (pvals (map report ks) args) ->
  let ss := strings_image (map full ks) dyn args in
  load m str (length ss) = ss -> str + zlen ss <= lim ->
  exists pv sv vs,
    unpack_prims m nibs i in_ (pre ++ ts) (idx_from prim_type pre ts) = Some (combine (idx_from prim_type pre ts) pv, e) /\
    find_strs m lim str (pre ++ ts) (idx_from isStringType pre ts) = Some (combine (idx_from isStringType pre ts) sv, str + zlen ss) /\
    merge ts pv sv = Some vs /\ vals (map full ks) dyn args vs.
Proof.
  intros w ks. induction ks as [|k ks IH]; intros [|t ts] [|a0 args0] [|a args] pre m nibs i in_ e str lim dyn HR HF HD HN ss HL Hlim;
    cbn [related] in HR; try contradiction.
  - exists [], [], []. rewrite !idx_from_nil. cbn [unpack_prims find_strs merge combine map vals].
    destruct HN as (_ & _ & E). cbn [nb_at nb_end nb_cur map pvals pvalues concat] in E. rewrite zlen_nil in E.
    subst ss. cbn [map strings_image]. rewrite zlen_nil. splits; auto; f_equal; f_equal; lia.
  - destruct HR as [(ty & P & _ & T & Wf & Sf & Is & It & St) HR].
    inversion HF as [|? ? ? ? (_ & _ & Hk & Hs) HF']; subst.
    rewrite !idx_from_cons.
    assert (NT : nth (length pre) (pre ++ t :: ts) NONE = t) by (rewrite app_nth2 by lia; now rewrite Nat.sub_diag).
    assert (EP : pre ++ t :: ts = (pre ++ [t]) ++ ts) by (now rewrite <- app_assoc).
    cbn [map pvals] in HN. rewrite report_strp in HN by auto. rewrite It.
    destruct (is_strk k) eqn:EK; cbn [negb app].
    + (* a string *)
      assert (SI : exists lim0, (forall n, lim0 = Some n -> 0 <= n) /\
        ss = out_str lim0 a ++ strings_image (map full ks) dyn args /\
        forall v vs, vstr lim0 a v -> vals (map full ks) dyn args vs -> vals (map full (k :: ks)) dyn (a :: args) (v :: vs)).
      { subst ss. destruct k as [| |l| |]; try discriminate EK.
        - cbn [map full]. destruct l as [n|].
          + destruct (n =? 0).
            * exists None. splits; [discriminate|reflexivity|intros; cbn [vals]; auto].
            * exists (Some n). cbn [class_ok] in Hk. splits; [intros n' E'; apply some_inj in E'; lia|reflexivity|intros; cbn [vals]; auto].
          + exists None. splits; [discriminate|reflexivity|intros; cbn [vals]; auto].
        - exists dyn. splits; [exact HD|reflexivity|intros; cbn [map full vals]; auto]. }
      destruct SI as (lim0 & L0 & SI & VV). rewrite SI in HL, Hlim |- *. apply load_split in HL. destruct HL as [HL1 HL2].
      rewrite zlen_app in *. pose proof (zlen_nonneg _ (strings_image (map full ks) dyn args)).
      destruct (IH ts args0 args (pre ++ [t]) m nibs i in_ e (str + zlen (out_str lim0 a)) lim dyn HR HF' HD HN HL2 ltac:(lia))
        as (pv & sv & vs & U & F & M & V).
      rewrite <- EP in U, F.
      assert (FS : exists v, vstr lim0 a v /\ find_strs m lim str (pre ++ t :: ts) (length pre :: idx_from isStringType (pre ++ [t]) ts) =
        Some (combine (length pre :: idx_from isStringType (pre ++ [t]) ts) (v :: sv), str + zlen (out_str lim0 a) + zlen (strings_image (map full ks) dyn args))).
      { cbn [find_strs]. rewrite NT, P. specialize (Hs eq_refl).
        destruct a as [t0 v|bs|p buf|p buf|p|el p buf]; try discriminate Hs; cbn [aty_of out_str string_fits wf_arg vstr] in *.
        - destruct Sf as [Sz Sf]. destruct (up_to_nul buf) as [s0|] eqn:HU; [|congruence].
          destruct (visible_terminated lim0 buf s0 HU L0) as (Vi & _ & _). rewrite Vi in *.
          set (s := firstn _ buf) in *. destruct (visible_again lim0 buf s ltac:(congruence) L0 Vi) as [Fz _].
          rewrite zlen_app in *. change (zlen [0]) with 1 in *.
          rewrite (mstr_load s m str) by (auto; unfold zlen in *; lia). cbn [option_map].
          replace (str + (zlen s + 1)) with (str + (zlen s + 1)) in F by lia. rewrite F.
          exists (VaPtr str (PoChars (s ++ [0]))). split; [eauto|]. cbn [combine]. reflexivity.
        - destruct Sf as [Sz Sf]. destruct (up_to_nul buf) as [s0|] eqn:HU; [|congruence].
          destruct (visible_terminated lim0 buf s0 HU L0) as (Vi & _ & _). rewrite Vi in *.
          set (s := firstn _ buf) in *. destruct (visible_again lim0 buf s ltac:(congruence) L0 Vi) as [Fz _].
          fold (wbytes s) in *. rewrite zlen_app, wbytes_zlen in *. change (zlen [0; 0; 0; 0]) with 4 in *.
          destruct Wf as [_ Wf]. pose proof (visible_Forall _ _ _ _ Wf Vi) as Fw.
          rewrite (mwstr_load s m str) by (auto; unfold zlen in *; lia). cbn [option_map].
          replace (str + (4 * zlen s + 4)) with (str + (zlen s + 1) * 4) in F by lia. rewrite F.
          exists (VaPtr str (PoWide (s ++ [0]))). split; [eauto|]. cbn [combine]. f_equal. f_equal. lia. }
      destruct FS as (v & V1 & FS). exists pv, (v :: sv), (v :: vs).
      splits; auto.
      * rewrite FS. f_equal. f_equal. lia.
      * cbn [merge]. replace (isStringType t) with true by congruence. rewrite M. reflexivity.
    + (* not a string *)
      destruct (unpack_as_spec t a m nibs i in_ e (pvals (map report ks) args) P ltac:(congruence) Wf HN) as (p & U1 & N1).
      assert (SI : exists dyn', (forall n, dyn' = Some n -> 0 <= n) /\ ss = strings_image (map full ks) dyn' args /\
        forall vs, vals (map full ks) dyn' args vs -> vals (map full (k :: ks)) dyn (a :: args) (promote a :: vs)).
      { subst ss. destruct k as [| |l| |]; try discriminate EK; cbn [map full].
        - exists dyn. splits; [exact HD|reflexivity|intros; cbn [vals]; auto].
        - exists (match take_int (promote a) with Some n => if n <? 0 then None else Some n | None => None end).
          splits; [|reflexivity|intros; cbn [vals]; auto].
          intros n E. destruct (take_int (promote a)) as [n0|]; [|discriminate E]. destruct (n0 <? 0) eqn:EN; [discriminate E|].
          apply some_inj in E. lia.
        - exists dyn. splits; [exact HD|reflexivity|intros; cbn [vals]; auto]. }
      destruct SI as (dyn' & D' & SI & VV). rewrite SI in HL, Hlim |- *.
      destruct (IH ts args0 args (pre ++ [t]) m nibs (i + 1) p e str lim dyn' HR HF' D' N1 HL Hlim) as (pv & sv & vs & U & F & M & V).
      rewrite <- EP in U, F. exists (promote a :: pv), sv, (promote a :: vs). splits; auto.
      * cbn [unpack_prims]. rewrite NT, P, U1, U. reflexivity.
      * cbn [merge]. replace (isStringType t) with false by congruence. rewrite M. reflexivity.
Qed.

(** printf on what was read back. *)
Lemma take_vstr : forall sp pr pr' a v x, (forall n, pr = Some n -> 0 <= n) -> stored_as pr pr' ->
  take sp pr (promote a) = Some x -> string_fits a -> vstr pr' a v -> is_string_arg a = true ->
  is_strk (spec_class sp) = true -> spec_ok sp = true -> take sp pr v = Some x.
Proof.
  intros sp pr pr' a v x Hp HS HT Hf HV Ha Hk Hok. rewrite spec_class_kind in Hk by auto. unfold take in *.
  destruct (conv_kind sp); try discriminate Hk;
    destruct a as [t0 v0|bs|p buf|p buf|p|el p buf]; try discriminate Ha; cbn [promote vstr string_fits] in *; try discriminate HT;
    destruct HV as (q & s & V & ->); destruct Hf as [Hz _];
    destruct (visible pr buf) as [s0|] eqn:V0; try discriminate HT;
    destruct (stored_again pr pr' buf s0 Hz Hp HS V0) as (s' & V' & _ & A);
    assert (s' = s) as -> by congruence; rewrite A; exact HT.
Qed.

Lemma run_vals : forall conv ps args vs text dyn, fmt_ok ps = true -> Forall2 arg_fine (params ps) args ->
  vals (map full (params ps)) dyn args vs -> run conv ps (map promote args) = Some text -> run conv ps vs = Some text.
Proof.
  intros conv. induction ps as [|[c| |sp] ps IH]; intros args vs text dyn Hok HF HV HR.
  - inversion HF; subst. cbn [params map concat] in HV. destruct vs; [exact HR|destruct HV].
  - unfold fmt_ok in Hok. cbn [forallb] in Hok. apply andb_true_iff in Hok. destruct Hok as [_ Hok]. cbn [run] in *.
    destruct (run conv ps (map promote args)) as [t|] eqn:E; [|discriminate HR].
    rewrite (IH args vs t dyn Hok HF HV E). exact HR.
  - unfold fmt_ok in Hok. cbn [forallb] in Hok. apply andb_true_iff in Hok. destruct Hok as [_ Hok]. cbn [run] in *.
    destruct (run conv ps (map promote args)) as [t|] eqn:E; [|discriminate HR].
    rewrite (IH args vs t dyn Hok HF HV E). exact HR.
  - unfold fmt_ok in Hok. cbn [forallb piece_ok] in Hok. apply andb_true_iff in Hok. destruct Hok as [Hsp Hok]. cbn [run] in *.
    change (params (Conv sp :: ps)) with (spec_params sp ++ params ps) in *.
    destruct (resolve sp (map promote args)) as [[rc rest]|] eqn:ER; [|discriminate HR].
    assert (G : exists args' vs' dyn', Forall2 arg_fine (params ps) args' /\ vals (map full (params ps)) dyn' args' vs' /\
      rest = map promote args' /\ resolve sp vs = Some (rc, vs')).
    { pose proof (spec_ok_inv _ Hsp) as (_ & _ & Hpo & _).
      assert (LAST : forall po args2 vs2 dyn2 extra wo v3 vs3, (forall n, po = Some n -> 0 <= n) ->
        Forall2 arg_fine (spec_class sp :: params ps) args2 -> vals (map full (spec_class sp :: params ps)) dyn2 args2 vs2 ->
        match sp_prec sp with PrNone => po = None | PrNum ds => po = Some (dec_val ds) | PrStar => dyn2 = po end ->
        map promote args2 = v3 :: vs3 ->
        match take sp po v3 with Some x => Some (RConv (extra ++ sp_flags sp) wo po (sp_len sp) (sp_conv sp) x, vs3) | None => None end = Some (rc, rest) ->
        exists args' vs', Forall2 arg_fine (params ps) args' /\ vals (map full (params ps)) dyn2 args' vs' /\ rest = map promote args' /\
          exists v, vs2 = v :: vs' /\ match take sp po v with Some x => Some (RConv (extra ++ sp_flags sp) wo po (sp_len sp) (sp_conv sp) x, vs') | None => None end = Some (rc, vs')).
      { intros po args2 vs2 dyn2 extra wo v3 vs3 HP HF2 HV2 HPr E3 ET.
        inversion HF2 as [|? a ? args3 (Wf & Sf & Ck & Hs) HF3]; subst. cbn [map] in E3.
        assert (promote a = v3 /\ map promote args3 = vs3) as (<- & <-) by (split; congruence). clear E3.
        destruct (take sp po (promote a)) as [x|] eqn:TK; [|discriminate ET].
        assert (map promote args3 = rest /\ rc = RConv (extra ++ sp_flags sp) wo po (sp_len sp) (sp_conv sp) x) as (<- & ->) by (split; congruence).
        destruct vs2 as [|v vs2]; [cbn [map vals] in HV2; destruct HV2|]. cbn [map] in HV2.
        assert (VT : take sp po v = Some x /\ vals (map full (params ps)) dyn2 args3 vs2).
        { destruct (is_strk (spec_class sp)) eqn:EK.
          - assert (VS : exists po', stored_as po po' /\ vstr po' a v /\ vals (map full (params ps)) dyn2 args3 vs2).
            { unfold spec_class in HV2, EK. destruct (sp_conv sp =? 115); [|discriminate EK].
              destruct (sp_prec sp) as [|ds|]; cbn [full] in HV2.
              - subst po. exists None. split; [now left|exact HV2].
              - subst po. destruct (dec_val ds =? 0) eqn:EZ.
                + exists None. split; [|exact HV2]. right. split; [f_equal; lia|reflexivity].
                + exists (Some (dec_val ds)). split; [now left|exact HV2].
              - subst po. exists dyn2. split; [now left|exact HV2]. }
            destruct VS as (po' & S1 & S2 & S3). split; [|exact S3].
            eapply take_vstr; eauto.
          - unfold spec_class in HV2, EK. destruct (sp_conv sp =? 115); [destruct (sp_prec sp); discriminate EK|].
            cbn [full vals] in HV2. destruct HV2 as [-> HV2]. auto. }
        destruct VT as [VT VV]. exists args3, vs2. splits; auto. exists v. rewrite VT. auto. }
      unfold resolve in ER |- *. unfold spec_params in HF, HV. rewrite <- !app_assoc in HF, HV.
      assert (PREC : forall args1 vs1 dyn1 extra wo,
        Forall2 arg_fine (pstar (sp_prec sp) ++ spec_class sp :: params ps) args1 ->
        vals (map full (pstar (sp_prec sp) ++ spec_class sp :: params ps)) dyn1 args1 vs1 ->
        match take_prec (sp_prec sp) (map promote args1) with
        | None => None
        | Some (pr, vs2) => match vs2 with [] => None | v :: vs3 =>
            match take sp pr v with None => None | Some x => Some (RConv (extra ++ sp_flags sp) wo pr (sp_len sp) (sp_conv sp) x, vs3) end end
        end = Some (rc, rest) ->
        exists args' vs' dyn', Forall2 arg_fine (params ps) args' /\ vals (map full (params ps)) dyn' args' vs' /\ rest = map promote args' /\
        match take_prec (sp_prec sp) vs1 with
        | None => None
        | Some (pr, vs2) => match vs2 with [] => None | v :: vs3 =>
            match take sp pr v with None => None | Some x => Some (RConv (extra ++ sp_flags sp) wo pr (sp_len sp) (sp_conv sp) x, vs3) end end
        end = Some (rc, vs')).
      { intros args1 vs1 dyn1 extra wo HF1 HV1 E1.
        destruct (sp_prec sp) as [|ds|] eqn:PR; cbn [pstar app take_prec] in *.
        - destruct (map promote args1) as [|v3 vs3] eqn:EM; [discriminate E1|].
          destruct (LAST None args1 vs1 dyn1 extra wo v3 vs3 ltac:(discriminate) HF1 HV1 eq_refl EM E1) as (a' & v' & A & B & C & v & -> & D).
          exists a', v', dyn1. auto.
        - destruct (map promote args1) as [|v3 vs3] eqn:EM; [discriminate E1|].
          assert (PN : forall n, Some (dec_val ds) = Some n -> 0 <= n).
          { intros n E. apply some_inj in E. subst n. apply dec_val_nonneg. exact Hpo. }
          destruct (LAST (Some (dec_val ds)) args1 vs1 dyn1 extra wo v3 vs3 PN HF1 HV1 eq_refl EM E1) as (a' & v' & A & B & C & v & -> & D).
          exists a', v', dyn1. auto.
        - inversion HF1 as [|? a ? args2 (Wf & Sf & Ck & Hs) HF2]; subst. cbn [map] in E1, HV1.
          change (full KPrec) with KPrec in HV1. destruct vs1 as [|v vs1]; [destruct HV1|]. cbn [vals] in HV1. destruct HV1 as [-> HV1].
          destruct (take_int (promote a)) as [n|] eqn:TI; [|discriminate E1].
          destruct (map promote args2) as [|v3 vs3] eqn:EM; [discriminate E1|].
          assert (PN : forall k, (if n <? 0 then None else Some n) = Some k -> 0 <= k).
          { intros k E. destruct (n <? 0) eqn:EN; [discriminate E|]. apply some_inj in E. lia. }
          destruct (LAST _ args2 vs1 _ extra wo v3 vs3 PN HF2 HV1 eq_refl EM E1) as (a' & v' & A & B & C & v & -> & D).
          exists a', v', (if n <? 0 then None else Some n). auto. }
      destruct (sp_width sp) as [|ds|] eqn:WD; cbn [app take_width] in *.
      - exact (PREC args vs dyn [] None HF HV ER).
      - exact (PREC args vs dyn [] (Some (dec_val ds)) HF HV ER).
      - inversion HF as [|? a ? args2 (Wf & Sf & Ck & Hs) HF2]; subst. cbn [map] in ER, HV.
        change (full KWidth) with KWidth in HV. destruct vs as [|v vs]; [destruct HV|]. cbn [vals] in HV. destruct HV as [-> HV].
        destruct (take_int (promote a)) as [n|] eqn:TI; [|discriminate ER].
        destruct (n <? 0).
        + exact (PREC args2 vs dyn [45] (Some (- n)) HF2 HV ER).
        + exact (PREC args2 vs dyn [] (Some n) HF2 HV ER). }
    destruct G as (args' & vs' & dyn' & F' & V' & -> & ->).
    destruct (run conv ps (map promote args')) as [t|] eqn:E; [|discriminate HR].
    rewrite (IH args' vs' t dyn' Hok F' V' E). exact HR.
Qed.

(** The decompression function. *)
Lemma gen_decompress_spec : forall w conv ps types args0 args text m o lim,
  related w (params ps) types args0 args -> Forall class_ok (params ps) -> fmt_ok ps = true ->
  run conv ps (map promote args) = Some text ->
  let xs := pvals (map report (params ps)) args in
  let strings := strings_image (map full (params ps)) None args in
  block_at m o xs -> load m (o + (zlen xs + 1) / 2 + zlen (pvalues xs)) (length strings) = strings ->
  o + (zlen xs + 1) / 2 + zlen (pvalues xs) + zlen strings <= lim ->
  gen_decompress conv (render ps) types m o lim = Some (text, o + (zlen xs + 1) / 2 + zlen (pvalues xs) + zlen strings).
Proof.
  intros w conv ps types args0 args text m o lim HR HC Hok HT xs strings HB HL Hlim.
  destruct (related_len _ _ _ _ _ HR) as (L1 & L2 & L3).
  destruct (related_prims _ _ _ _ _ HR HC) as (P1 & P2 & P3). fold xs in P3.
  assert (NZ : zlen (prim_idx types) = zlen xs).
  { rewrite <- P3, zlen_map. rewrite (selb_zlen prim_type types args types L1 eq_refl), <- idx_types, zlen_map. reflexivity. }
  pose proof (related_fine _ _ _ _ _ HR HC) as HF.
  assert (NA : nibbler_at m (nb_at o 0 (o + (zlen xs + 1) / 2) (o + (zlen xs + 1) / 2 + zlen (pvalues xs))) xs).
  { destruct HB as [B1 B2]. unfold nb_at. change (Z.even 0) with true. change (0 / 2) with 0. rewrite Z.add_0_r.
    repeat split; auto. }
  destruct (unpack_spec w (params ps) types args0 args [] m o 0 _ _ _ lim None HR HF ltac:(discriminate) NA HL Hlim)
    as (pv & sv & vs & U & F & M & V). cbn [app] in U, F.
  unfold gen_decompress. rewrite NZ, prim_idx_from, string_idx_from, U, F.
  pose proof (merge_vals types [] pv sv vs M) as MV. cbn [length] in MV. rewrite MV.
  unfold printf. rewrite parse_render by auto. rewrite (run_vals conv ps args vs text None Hok HF V HT). reflexivity.
Qed.

(** ** The characters of a string literal *)

(** The pieces a source text stands for. *)
Fixpoint value (ps : list piece) : option (list piece) :=
  match ps with
  | [] => Some []
  | Lit c :: r =>
    if c =? c_bsl then
      match r with
      | Lit e :: r' => match escape e, value r' with Some v, Some l => Some (Lit v :: l) | _, _ => None end
      | _ => None
      end
    else option_map (cons (Lit c)) (value r)
  | x :: r => option_map (cons x) (value r)
  end.

Lemma escape_ok : forall e v, escape e = Some v -> piece_ok (Lit v) = true.
Proof.
  intros e v H. unfold escape in H. cbn [mem_char] in H.
  repeat match type of H with (if ?b then _ else _) = _ => destruct b eqn:? end; try discriminate H; apply some_inj in H; subst v; try reflexivity.
  cbn [piece_ok]. unfold c_pct. cbn [mem_char existsb orb] in *. lia.
Qed.

Lemma literal_plain : forall s t, Forall (fun c => c <> c_bsl) s -> literal (s ++ t) = option_map (app s) (literal t).
Proof.
  induction s as [|c s IH]; intros t H; [cbn [app]; destruct (literal t); reflexivity|].
  inversion H; subst. cbn [app literal]. replace (c =? c_bsl) with false by lia. rewrite IH by auto. destruct (literal t); reflexivity.
Qed.

Lemma value_app : forall a b va vb, value a = Some va -> value b = Some vb -> value (a ++ b) = Some (va ++ vb).
Proof.
  assert (G : forall n a b va vb, (length a <= n)%nat -> value a = Some va -> value b = Some vb -> value (a ++ b) = Some (va ++ vb)).
  { induction n as [|n IH]; intros a b va vb Hn HA HB.
    { destruct a; [|cbn in Hn; lia]. cbn in HA. apply some_inj in HA. subst va. exact HB. }
    destruct a as [|p a]; [cbn in HA; apply some_inj in HA; subst va; exact HB|]. cbn [length] in Hn.
    assert (S1 : forall q, option_map (cons q) (value a) = Some va -> option_map (cons q) (value (a ++ b)) = Some (va ++ vb)).
    { intros q H. destruct (value a) as [v|] eqn:E; [|discriminate H]. cbn [option_map] in H. apply some_inj in H. subst va.
      rewrite (IH a b v vb ltac:(lia) E HB). reflexivity. }
    destruct p as [c| |sp]; cbn [app value] in *; auto.
    destruct (c =? c_bsl) eqn:Eb; auto. destruct a as [|[e| |sp] a]; try discriminate HA. cbn [app].
    destruct (escape e) as [v|]; [|discriminate HA]. destruct (value a) as [l|] eqn:E; [|discriminate HA].
    apply some_inj in HA. subst va. rewrite (IH a b l vb ltac:(cbn [length] in Hn; lia) E HB). reflexivity. }
  intros a b va vb. apply (G (length a) a b va vb). lia.
Qed.

Lemma value_spec : forall ps v, value ps = Some v -> fmt_ok ps = true ->
  fmt_ok v = true /\ convs v = convs ps /\ params v = params ps /\ esc_ok ps = true.
Proof.
  assert (G : forall n ps v, (length ps <= n)%nat -> value ps = Some v -> fmt_ok ps = true ->
    fmt_ok v = true /\ convs v = convs ps /\ params v = params ps /\ esc_ok ps = true).
  { induction n as [|n IH]; intros ps v Hn HV Hok.
    { destruct ps; [|cbn in Hn; lia]. cbn in HV. apply some_inj in HV. subst v. auto. }
    destruct ps as [|p ps]; [cbn in HV; apply some_inj in HV; subst v; auto|]. cbn [length] in Hn.
    unfold fmt_ok in Hok. cbn [forallb] in Hok. apply andb_true_iff in Hok. destruct Hok as [Hp Hok]. fold (fmt_ok ps) in Hok.
    assert (S1 : forall q, option_map (cons q) (value ps) = Some v -> piece_ok q = true ->
       exists v', v = q :: v' /\ fmt_ok v = true /\ convs v' = convs ps /\ params v' = params ps /\ esc_ok ps = true).
    { intros q H Hq. destruct (value ps) as [v'|] eqn:E; [|discriminate H]. cbn [option_map] in H. apply some_inj in H. subst v.
      exists v'. destruct (IH ps v' ltac:(lia) E Hok) as (A & B & C & D). split; auto. split; auto.
      unfold fmt_ok in *. cbn [forallb]. now rewrite Hq, A. }
    destruct p as [c| |sp].
    - cbn [value] in HV. destruct (c =? c_bsl) eqn:Eb.
      + destruct ps as [|[e| |sp] ps]; try discriminate HV.
        destruct (escape e) as [w|] eqn:Ee; [|discriminate HV]. destruct (value ps) as [l|] eqn:E; [|discriminate HV].
        apply some_inj in HV. subst v. unfold fmt_ok in Hok. cbn [forallb] in Hok. apply andb_true_iff in Hok. destruct Hok as [_ Hok].
        destruct (IH ps l ltac:(cbn [length] in Hn; lia) E Hok) as (A & B & C & D).
        cbn [esc_ok convs]. rewrite Eb. split; [unfold fmt_ok in *; cbn [forallb]; now rewrite (escape_ok e w Ee), A|].
        split; [exact B|]. split; [exact C|exact D].
      + destruct (S1 (Lit c) HV Hp) as (v' & -> & A & B & C & D). cbn [esc_ok convs]. rewrite Eb.
        split; [exact A|]. split; [exact B|]. split; [exact C|exact D].
    - destruct (S1 Pct HV eq_refl) as (v' & -> & A & B & C & D).
      split; [exact A|]. split; [exact B|]. split; [exact C|exact D].
    - destruct (S1 (Conv sp) HV Hp) as (v' & -> & A & B & C & D).
      split; [exact A|]. split; [cbn [convs]; now rewrite B|]. split; [|exact D].
      unfold params in *. cbn [map concat]. now rewrite C. }
  intros ps v. apply (G (length ps)). lia.
Qed.

Lemma spec_no_escape : forall sp, spec_ok sp = true -> Forall (fun c => c <> c_bsl) (render_spec sp).
Proof.
  intros sp H. apply spec_ok_inv in H. destruct H as (H1 & H2 & H3 & H4).
  unfold render_spec. constructor; [unfold c_pct, c_bsl; lia|]. rewrite !Forall_app.
  assert (D : forall ds, forallb is_dig ds = true -> Forall (fun c => c <> c_bsl) ds).
  { intros ds HD. rewrite forallb_forall in HD. apply Forall_forall. intros c Hc. specialize (HD c Hc).
    unfold is_dig, c_bsl in *. lia. }
  splits.
  - rewrite forallb_forall in H1. apply Forall_forall. intros c Hc. specialize (H1 c Hc). in_chars H1; intro X; vm_compute in X; discriminate X.
  - destruct (sp_width sp) as [|ds|]; cbn [render_width]; [constructor| |constructor; [unfold c_star, c_bsl; lia|constructor]].
    cbn [width_ok] in H2. destruct ds as [|d ds]; [constructor|]. apply D. rewrite !andb_true_iff in H2. intuition.
  - destruct (sp_prec sp) as [|ds|]; cbn [render_prec]; [constructor| |repeat constructor; unfold c_star, c_dot, c_bsl; lia].
    constructor; [unfold c_dot, c_bsl; lia|]. apply D. exact H3.
  - apply len_ok_len in H4. cbn [In] in H4.
    assert (B : forallb (fun c => negb (c =? c_bsl)) (sp_len sp) = true)
      by (repeat (destruct H4 as [<-|H4]; [reflexivity|]); destruct H4).
    rewrite forallb_forall in B. apply Forall_forall. intros c Hc. specialize (B c Hc). lia.
  - apply len_ok_conv in H4. revert H4. generalize (sp_conv sp). intros c H4. constructor; [|constructor]. in_chars H4; intro X; vm_compute in X; discriminate X.
Qed.

Lemma literal_render : forall ps t, fmt_ok ps = true -> literal (render ps) = Some t ->
  exists v, value ps = Some v /\ t = render v.
Proof.
  assert (G : forall n ps t, (length ps <= n)%nat -> fmt_ok ps = true -> literal (render ps) = Some t ->
    exists v, value ps = Some v /\ t = render v).
  { induction n as [|n IH]; intros ps t Hn Hok HL.
    { destruct ps; [|cbn in Hn; lia]. cbn in HL. apply some_inj in HL. subst t. exists []. auto. }
    destruct ps as [|p ps]; [cbn in HL; apply some_inj in HL; subst t; exists []; auto|]. cbn [length] in Hn.
    unfold fmt_ok in Hok. cbn [forallb] in Hok. apply andb_true_iff in Hok. destruct Hok as [Hp Hok]. fold (fmt_ok ps) in Hok.
    rewrite render_cons in HL.
    assert (S1 : forall q, Forall (fun c => c <> c_bsl) (render_piece q) -> literal (render_piece q ++ render ps) = Some t ->
       exists v, option_map (cons q) (value ps) = Some v /\ t = render v).
    { intros q Hq H. rewrite literal_plain in H by auto. destruct (literal (render ps)) as [t'|] eqn:E; [|discriminate H].
      cbn [option_map] in H. apply some_inj in H. subst t. destruct (IH ps t' ltac:(lia) Hok E) as (v & V & ->).
      exists (q :: v). rewrite V, render_cons. split; reflexivity. }
    destruct p as [c| |sp]; cbn [value].
    - cbn [render_piece app literal] in HL. destruct (c =? c_bsl) eqn:Eb.
      + destruct ps as [|p ps]; [discriminate HL|]. rewrite render_cons in HL.
        destruct p as [e| |sp].
        * cbn [render_piece app] in HL. destruct (escape e) as [w|]; [|discriminate HL].
          destruct (literal (render ps)) as [t'|] eqn:E; [|discriminate HL]. apply some_inj in HL. subst t.
          unfold fmt_ok in Hok. cbn [forallb] in Hok. apply andb_true_iff in Hok. destruct Hok as [_ Hok].
          destruct (IH ps t' ltac:(cbn [length] in Hn; lia) Hok E) as (v & V & ->). rewrite V.
          exists (Lit w :: v). split; [reflexivity|]. rewrite render_cons. reflexivity.
        * discriminate HL.
        * discriminate HL.
      + apply (S1 (Lit c)); [repeat constructor; lia|]. cbn [render_piece app literal]. rewrite Eb. exact HL.
    - apply (S1 Pct); auto. repeat constructor; unfold c_pct, c_bsl; lia.
    - apply (S1 (Conv sp)); auto. now apply spec_no_escape. }
  intros ps t. apply (G (length ps)). lia.
Qed.

(** The groups of a format whose constants are all string literals. *)
Lemma value_split : forall a sp b v, value ((a ++ [Conv sp]) ++ b) = Some v ->
  exists va vb, value (a ++ [Conv sp]) = Some va /\ value b = Some vb /\ v = va ++ vb.
Proof.
  assert (G : forall n a sp b v, (length a <= n)%nat -> value ((a ++ [Conv sp]) ++ b) = Some v ->
    exists va vb, value (a ++ [Conv sp]) = Some va /\ value b = Some vb /\ v = va ++ vb).
  { induction n as [|n IH]; intros a sp b v Hn H.
    - destruct a; [|cbn in Hn; lia]. cbn [app value] in *. destruct (value b) as [vb|]; [|discriminate H].
      cbn [option_map] in *. apply some_inj in H. subst v. exists [Conv sp], vb. auto.
    - destruct a as [|p a].
      { cbn [app value] in *. destruct (value b) as [vb|]; [|discriminate H].
        cbn [option_map] in *. apply some_inj in H. subst v. exists [Conv sp], vb. auto. }
      cbn [length] in Hn.
      assert (S1 : forall q, option_map (cons q) (value ((a ++ [Conv sp]) ++ b)) = Some v ->
        exists va vb, option_map (cons q) (value (a ++ [Conv sp])) = Some va /\ value b = Some vb /\ v = va ++ vb).
      { intros q Hq. destruct (value ((a ++ [Conv sp]) ++ b)) as [w|] eqn:E; [|discriminate Hq]. cbn [option_map] in Hq.
        apply some_inj in Hq. subst v. destruct (IH a sp b w ltac:(lia) E) as (va & vb & A & B & ->).
        exists (q :: va), vb. rewrite A. auto. }
      destruct p as [c| |sp']; cbn [app value] in *; auto. destruct (c =? c_bsl); auto.
      destruct a as [|[e| |sp'] a]; cbn [app] in *; try discriminate H.
      destruct (escape e) as [w|]; [|discriminate H].
      destruct (value ((a ++ [Conv sp]) ++ b)) as [l|] eqn:E; [|discriminate H]. apply some_inj in H. subst v.
      destruct (IH a sp b l ltac:(cbn [length] in Hn; lia) E) as (va & vb & A & B & ->). rewrite A.
      exists (Lit w :: va), vb. auto. }
  intros a sp b v. apply (G (length a)). lia.
Qed.

Lemma group_values : forall gs v, cut_ok gs -> value (concat gs) = Some v ->
  exists vgs, Forall2 (fun g w => value g = Some w) gs vgs /\ concat vgs = v.
Proof.
  induction gs as [|g gs IH]; intros v HC HV; cbn [concat cut_ok] in *.
  - cbn in HV. apply some_inj in HV. subst v. exists []. auto.
  - destruct HC as [HC1 HC2]. destruct gs as [|g2 gs].
    + cbn [concat] in HV. rewrite app_nil_r in HV. exists [v]. cbn [concat]. rewrite app_nil_r. split; auto.
    + destruct HC1 as (a & sp & ->); [discriminate|].
      destruct (value_split _ _ _ _ HV) as (va & vb & A & B & ->). destruct (IH vb HC2 B) as (vgs & F & <-).
      exists (va :: vgs). split; [constructor; auto|reflexivity].
Qed.

Lemma value_literal : forall ps v, value ps = Some v -> fmt_ok ps = true -> literal (render ps) = Some (render v).
Proof.
  assert (G : forall n ps v, (length ps <= n)%nat -> value ps = Some v -> fmt_ok ps = true -> literal (render ps) = Some (render v)).
  { induction n as [|n IH]; intros ps v Hn HV Hok.
    { destruct ps; [|cbn in Hn; lia]. cbn in HV. apply some_inj in HV. subst v. auto. }
    destruct ps as [|p ps]; [cbn in HV; apply some_inj in HV; subst v; auto|]. cbn [length] in Hn.
    unfold fmt_ok in Hok. cbn [forallb] in Hok. apply andb_true_iff in Hok. destruct Hok as [Hp Hok]. fold (fmt_ok ps) in Hok.
    rewrite render_cons.
    assert (S1 : forall q, Forall (fun c => c <> c_bsl) (render_piece q) -> option_map (cons q) (value ps) = Some v ->
       literal (render_piece q ++ render ps) = Some (render v)).
    { intros q Hq H. destruct (value ps) as [w|] eqn:E; [|discriminate H]. cbn [option_map] in H. apply some_inj in H. subst v.
      rewrite literal_plain, (IH ps w ltac:(lia) E Hok), render_cons by auto. reflexivity. }
    destruct p as [c| |sp]; cbn [value] in HV.
    - destruct (c =? c_bsl) eqn:Eb.
      + destruct ps as [|[e| |sp] ps]; try discriminate HV.
        rewrite render_cons. cbn [render_piece app literal]. rewrite Eb.
        destruct (escape e) as [w|]; [|discriminate HV]. destruct (value ps) as [l|] eqn:E; [|discriminate HV].
        apply some_inj in HV. subst v. unfold fmt_ok in Hok. cbn [forallb] in Hok. apply andb_true_iff in Hok. destruct Hok as [_ Hok].
        rewrite (IH ps l ltac:(cbn [length] in Hn; lia) E Hok), render_cons. reflexivity.
      + apply (S1 (Lit c)); auto. repeat constructor. lia.
    - apply (S1 Pct); auto. repeat constructor; unfold c_pct, c_bsl; lia.
    - apply (S1 (Conv sp)); auto. now apply spec_no_escape. }
  intros ps v. apply (G (length ps)). lia.
Qed.

(** The fragments of the dictionary describe the groups of the characters. *)
Definition frag_of_d (d : dfrag) : frag := Frag (df_type d) (df_dw d) (df_dp d) (df_text d).

Lemma pwidth_star : forall sp, is_fstar (pwidth sp) = dyn_width sp.
Proof. intro sp. unfold pwidth, dyn_width. destruct (sp_width sp); reflexivity. Qed.
Lemma pprec_star : forall sp, is_fstar (pprec sp) = dyn_prec sp.
Proof. intro sp. unfold pprec, dyn_prec. destruct (sp_prec sp); reflexivity. Qed.

Lemma gen_frags : forall gs fs vgs, Forall2 fragment_of gs fs -> Forall2 (fun g w => value g = Some w) gs vgs ->
  fmt_ok (concat gs) = true ->
  exists dfs, all_some (map gen_frag fs) = Some dfs /\ Forall2 describes vgs (map frag_of_d dfs).
Proof.
  intros gs fs vgs HF. revert vgs. induction HF as [|g f gs fs Hg HF IH]; intros vgs HV Hok; inversion HV; subst.
  - exists []. split; [reflexivity|constructor].
  - cbn [concat] in Hok. rewrite fmt_ok_app in Hok. apply andb_true_iff in Hok. destruct Hok as [Hok1 Hok2].
    match goal with H : value g = Some ?w, H2 : Forall2 _ gs ?l |- _ => rename H into V1; rename H2 into V2 end.
    destruct (IH _ V2 Hok2) as (dfs & E & D). destruct Hg as [T Hg].
    destruct (value_spec _ _ V1 Hok1) as (_ & CV & _).
    cbn [map all_some]. unfold gen_frag at 1. rewrite T, (value_literal _ _ V1 Hok1), E.
    eexists. split; [reflexivity|]. cbn [map]. constructor; [|exact D].
    unfold describes, frag_of_d. cbn [fr_text fr_type fr_dw fr_dp df_text df_type df_dw df_dp]. rewrite CV.
    split; [reflexivity|]. destruct (convs g) as [|sp [|? ?]]; [| |destruct Hg].
    + destruct Hg as (-> & -> & ->). auto.
    + destruct Hg as (K & -> & ->). rewrite pwidth_star, pprec_star. auto.
Qed.
