(** What the generated record function leaves in the staging buffer. *)
From Verif Require Import Base BaseProofs Packer PackerProofs LogHeader LogHeaderProofs Chars Fmt FmtProofs FrontFmt FrontFmtProofs
  Regex MicroCode MicroCodeProofs Args Printf ArgsProofs Prop_Args Decode DecodeProofs RingProofs Encoder
  Preproc PreprocProofs PreprocLit Prop_Preproc GenCode GenProofs.

Ltac Zify.zify_post_hook ::= Z.div_mod_to_equations.

(** ** Parameters by index *)

(** The elements of [l] whose types satisfy [f]. *)
Fixpoint selb {A} (f : ftype -> bool) (ts : list ftype) (l : list A) : list A :=
  match ts, l with
  | t :: ts, a :: l => if f t then a :: selb f ts l else selb f ts l
  | _, _ => []
  end.

Definition idx_from (f : ftype -> bool) (pre ts : list ftype) : list nat :=
  filter (fun i => f (nth i (pre ++ ts) NONE)) (seq (length pre) (length ts)).

Lemma idx_from_nil : forall f pre, idx_from f pre [] = [].
Proof. reflexivity. Qed.

Lemma idx_from_cons : forall f pre t ts, idx_from f pre (t :: ts) =
  (if f t then [length pre] else []) ++ idx_from f (pre ++ [t]) ts.
Proof.
  intros f pre t ts. unfold idx_from. cbn [length seq filter].
  rewrite app_nth2 by lia. rewrite Nat.sub_diag. cbn [nth].
  rewrite <- app_assoc. cbn [app]. rewrite app_length. cbn [length]. rewrite Nat.add_1_r.
  destruct (f t); reflexivity.
Qed.

Lemma idx_from_app : forall f ts1 pre ts2, idx_from f pre (ts1 ++ ts2) = idx_from f pre ts1 ++ idx_from f (pre ++ ts1) ts2.
Proof.
  induction ts1 as [|t ts1 IH]; intros pre ts2; cbn [app].
  - rewrite idx_from_nil, app_nil_r. reflexivity.
  - rewrite !idx_from_cons, IH, <- !app_assoc. reflexivity.
Qed.

Lemma string_idx_from : forall ts, string_idx ts = idx_from isStringType [] ts.
Proof. reflexivity. Qed.
Lemma prim_idx_from : forall ts, prim_idx ts = idx_from (fun t => negb (isStringType t)) [] ts.
Proof. reflexivity. Qed.

Lemma idx_ge : forall f ts pre i, In i (idx_from f pre ts) -> (length pre <= i)%nat.
Proof. intros f ts pre i H. apply filter_In in H. destruct H as [H _]. apply in_seq in H. lia. Qed.

Lemma idx_nodup : forall f ts pre, NoDup (idx_from f pre ts).
Proof. intros. apply NoDup_filter. apply seq_NoDup. Qed.

Lemma idx_map : forall {A} f ts (l : list A) pre apre, length ts = length l -> length pre = length apre ->
  map (nth_error (apre ++ l)) (idx_from f pre ts) = map Some (selb f ts l).
Proof.
  intros A f ts. induction ts as [|t ts IH]; intros [|a l] pre apre HL HP; try discriminate HL; [reflexivity|].
  rewrite idx_from_cons, map_app. cbn [selb].
  assert (E : map (nth_error (apre ++ a :: l)) (idx_from f (pre ++ [t]) ts) = map Some (selb f ts l)).
  { replace (apre ++ a :: l) with ((apre ++ [a]) ++ l) by (now rewrite <- app_assoc).
    apply IH; [cbn in HL; lia|rewrite !app_length; cbn; lia]. }
  rewrite E. destruct (f t); cbn [map app]; [|reflexivity].
  rewrite HP. rewrite nth_error_app2 by lia. rewrite Nat.sub_diag. reflexivity.
Qed.

Lemma idx_types : forall f ts, map (fun i => nth i ts NONE) (idx_from f [] ts) = selb f ts ts.
Proof.
  intros f ts. pose proof (idx_map f ts ts [] [] eq_refl eq_refl) as E. cbn [app] in E.
  revert E. generalize (idx_from f [] ts) (selb f ts ts). induction l as [|i l IH]; intros [|t r] E; try discriminate E; [reflexivity|].
  cbn [map] in *. f_equal.
  - assert (E1 : nth_error ts i = Some t) by congruence. now apply nth_error_nth with (d := NONE) in E1.
  - apply IH. congruence.
Qed.

(** ** Stores *)

Lemma store_over : forall m b x t u, zlen t = zlen u ->
  meq (store (store m b (x ++ t)) (b + zlen x) u) (store m b (x ++ u)).
Proof.
  intros m b x t u H. apply meq_trans with (store (store (store m b x) (b + zlen x) t) (b + zlen x) u).
  { apply store_meq. intro y. symmetry. apply store_app. }
  apply meq_trans with (store (store m b x) (b + zlen x) u); [|apply store_app].
  intro y. unfold store. rewrite H. destruct ((b + zlen x <=? y) && (y <? b + zlen x + zlen u)); reflexivity.
Qed.

Lemma record_prims_eq : forall idx l m b args, map (nth_error args) idx = map Some l ->
  exists m', record_prims m b args idx = Some (m', b + zlen (concat (map obj_bytes l))) /\
    meq m' (store m b (concat (map obj_bytes l))).
Proof.
  induction idx as [|i idx IH]; intros [|a l] m b args H; try discriminate H.
  - exists m. cbn [record_prims map concat]. rewrite zlen_nil, Z.add_0_r. split; [reflexivity|].
    intro x. symmetry. apply store_nil.
  - cbn [map] in H. assert (E : nth_error args i = Some a) by congruence. cbn [record_prims]. rewrite E.
    destruct (IH l (store m b (obj_bytes a)) (b + sizeof (aty_of a)) args ltac:(congruence)) as (m' & R & M).
    exists m'. rewrite R. cbn [map concat]. rewrite zlen_app, obj_bytes_zlen. split; [f_equal; f_equal; lia|].
    apply meq_trans with (1 := M). rewrite <- obj_bytes_zlen. apply store_app.
Qed.

(** What is stored for a string of which [n] bytes are counted. *)
Definition strb (a : arg) (n : Z) : list Z :=
  let w := characterWidth (aty_of a) in
  firstn (Z.to_nat (n - w)) (string_bytes a) ++ repeat 0 (Z.to_nat w).
Definition fits (a : arg) (n : Z) : Prop := 0 <= characterWidth (aty_of a) <= n /\ n <= zlen (string_bytes a).
Fixpoint stored (l : list arg) (ns : list Z) : list Z :=
  match l, ns with
  | a :: l, n :: ns => strb a n ++ stored l ns
  | _, _ => []
  end.

Lemma strb_zlen : forall a n, fits a n -> zlen (strb a n) = n.
Proof.
  intros a n H. unfold fits in H. unfold strb. rewrite zlen_app.
  unfold zlen in *. rewrite firstn_length, repeat_length. lia.
Qed.

Lemma stored_app : forall l1 ns1 l2 ns2, length l1 = length ns1 -> stored (l1 ++ l2) (ns1 ++ ns2) = stored l1 ns1 ++ stored l2 ns2.
Proof.
  induction l1 as [|a l1 IH]; intros [|n ns1] l2 ns2 H; try discriminate H; [reflexivity|].
  cbn [app stored]. rewrite IH by (cbn in H; lia). apply app_assoc.
Qed.

Lemma record_strs_eq : forall idx l ns lens m b args, map (nth_error args) idx = map Some l ->
  map (fun i => len_of i lens) idx = map Some ns -> Forall2 fits l ns ->
  exists m', record_strs m b args lens idx = Some (m', b + zlen (stored l ns)) /\ meq m' (store m b (stored l ns)).
Proof.
  induction idx as [|i idx IH]; intros [|a l] ns lens m b args H HN HF; try discriminate H; inversion HF as [|? n ? ns' F1 F2]; subst.
  - exists m. cbn [record_strs stored]. rewrite zlen_nil, Z.add_0_r. split; [reflexivity|].
    intro x. symmetry. apply store_nil.
  - cbn [map] in H, HN. assert (E : nth_error args i = Some a) by congruence.
    assert (E2 : len_of i lens = Some n) by congruence.
    cbn [record_strs]. rewrite E, E2. pose proof F1 as F1'. unfold fits in F1'.
    replace (zlen (string_bytes a) <? n) with false by lia. cbv zeta.
    set (m1 := store (store m b _) _ _).
    destruct (IH l ns' lens m1 (b + n) args ltac:(congruence) ltac:(congruence) F2) as (m' & R & M).
    exists m'. rewrite R. cbn [stored]. rewrite zlen_app, (strb_zlen a n F1). split; [f_equal; f_equal; lia|].
    apply meq_trans with (1 := M).
    apply meq_trans with (store (store m b (strb a n)) (b + zlen (strb a n)) (stored l ns')); [|apply store_app].
    rewrite (strb_zlen a n F1). apply store_meq. subst m1. unfold strb.
    set (w := characterWidth (aty_of a)) in *.
    assert (ES : firstn (Z.to_nat n) (string_bytes a) = firstn (Z.to_nat (n - w)) (string_bytes a)
      ++ firstn (Z.to_nat w) (skipn (Z.to_nat (n - w)) (string_bytes a))).
    { rewrite <- (firstn_skipn (Z.to_nat (n - w)) (firstn (Z.to_nat n) (string_bytes a))).
      rewrite firstn_firstn. rewrite Nat.min_l by lia. f_equal.
      rewrite skipn_firstn_comm. f_equal. lia. }
    rewrite ES. set (x := firstn (Z.to_nat (n - w)) (string_bytes a)).
    assert (ZX : zlen x = n - w) by (subst x; unfold zlen in *; rewrite firstn_length; lia).
    replace (b + n - w) with (b + zlen x) by lia. apply store_over.
    unfold zlen in *. rewrite firstn_length, skipn_length, repeat_length. lia.
Qed.

Lemma str_sizes_eq : forall idx l ns lens, map (fun i => len_of i lens) idx = map Some ns -> Forall2 fits l ns ->
  str_sizes lens idx = Some (zlen (stored l ns)).
Proof.
  induction idx as [|i idx IH]; intros l ns lens HN HF; destruct ns as [|n ns]; try discriminate HN; inversion HF as [|a ? l' ? F1 F2]; subst.
  - reflexivity.
  - cbn [map] in HN. cbn [str_sizes]. assert (E2 : len_of i lens = Some n) by congruence. rewrite E2.
    rewrite (IH l' ns lens ltac:(congruence) F2). cbn [stored]. rewrite zlen_app, strb_zlen by auto. reflexivity.
Qed.

(** Looking up what was declared. *)
Lemma len_of_decls : forall lens, NoDup (map fst lens) -> map (fun i => len_of i lens) (map fst lens) = map Some (map snd lens).
Proof.
  intros lens. induction lens as [|[i n] lens IH]; intro H; [reflexivity|].
  cbn [map fst snd] in *. inversion H as [|? ? H1 H2]; subst. cbn [len_of]. rewrite Nat.eqb_refl. f_equal.
  rewrite <- IH by auto. apply map_ext_in. intros j Hj. cbn [len_of]. destruct (Nat.eqb_spec j i); [subst; contradiction|reflexivity].
Qed.

(** ** The lengths *)

Lemma up_to_nul_none_cons : forall c r, up_to_nul (c :: r) = if c =? 0 then Some [] else option_map (cons c) (up_to_nul r).
Proof. reflexivity. Qed.

Lemma strnlen_cut : forall buf s n, up_to_nul buf = Some s -> 0 <= n -> strnlen buf n = Some (Z.min n (zlen s)).
Proof.
  induction buf as [|c buf IH]; intros s n H Hn; [discriminate H|].
  rewrite up_to_nul_none_cons in H. cbn [strnlen]. pose proof (zlen_nonneg _ s).
  destruct (n =? 0) eqn:E0; [f_equal; lia|].
  destruct (c =? 0) eqn:EC.
  - apply some_inj in H. subst s. rewrite zlen_nil. f_equal. lia.
  - destruct (up_to_nul buf) as [s'|] eqn:EU; [|discriminate H]. cbn [option_map] in H. apply some_inj in H. subst s.
    rewrite (IH s' (n - 1) eq_refl) by lia. cbn [option_map]. rewrite zlen_cons. f_equal. lia.
Qed.

(** The guard on string conversions: no precision with a wide string. *)
Definition prec_stored (sp : spec) : bool :=
  match conv_kind sp, sp_prec sp with
  | CkWStr, PrNum ds => dec_val ds =? 0
  | CkWStr, PrStar => false
  | _, _ => true
  end.
Definition stored_ok (ps : list piece) : bool := forallb prec_stored (convs ps).

(** What is known of the arguments. *)
Definition arg_fine (k : pclass) (a : arg) : Prop :=
  wf_arg a /\ string_fits a /\ class_ok k /\ (is_strk k = true -> is_string_arg a = true).

Lemma strb_out : forall a lim s, (forall n, lim = Some n -> 0 <= n) ->
  match a with
  | AStr _ buf => up_to_nul buf = Some s ->
      fits a (1 + cut_at lim (zlen s)) /\ strb a (1 + cut_at lim (zlen s)) = out_str lim a
  | AWStr _ buf => up_to_nul buf = Some s ->
      fits a ((1 + cut_at lim (zlen s)) * 4) /\ strb a ((1 + cut_at lim (zlen s)) * 4) = out_str lim a
  | _ => True
  end.
Proof.
  intros [t v|bs|p buf|p buf|p|e p buf] lim s Hl; auto; intro HU;
    destruct (visible_terminated lim buf s HU Hl) as (V & Z1 & Z2); pose proof (zlen_nonneg _ s);
    assert (C : 0 <= cut_at lim (zlen s) <= zlen s)
      by (unfold cut_at; destruct lim as [n|]; [specialize (Hl n eq_refl)|]; lia);
    unfold fits, strb, out_str; rewrite V; cbn [aty_of characterWidth string_bytes].
  - split; [lia|]. replace (1 + cut_at lim (zlen s) - 1) with (cut_at lim (zlen s)) by lia. reflexivity.
  - rewrite wbytes_zlen. split; [lia|].
    replace (Z.to_nat ((1 + cut_at lim (zlen s)) * 4 - 4)) with (4 * Z.to_nat (cut_at lim (zlen s)))%nat by lia.
    rewrite firstn_wbytes. reflexivity.
Qed.

(** One string. *)
Lemma str_len_spec : forall sp po prev a, spec_ok sp = true -> prec_stored sp = true -> is_strk (spec_class sp) = true ->
  is_string_arg a = true -> string_fits a -> (aty_of a = TyWStr <-> conv_kind sp = CkWStr) ->
  (forall n, po = Some n -> 0 <= n) ->
  match sp_prec sp with
  | PrNone => po = None
  | PrNum ds => po = if dec_val ds =? 0 then None else Some (dec_val ds)
  | PrStar => exists v, prev = Some (AInt (Ity true 4) v) /\ po = (if v <? 0 then None else Some v) /\ - 2 ^ 31 <= v < 2 ^ 31
  end ->
  exists n, str_len (pprec sp) prev a = Some n /\ fits a n /\ strb a n = out_str po a.
Proof.
  intros sp po prev a Hok Hg Hk Hs Hf Hty HL Hp.
  assert (Hc : sp_conv sp =? 115 = true).
  { unfold spec_class in Hk. destruct (sp_conv sp =? 115); [reflexivity|discriminate Hk]. }
  unfold prec_stored in Hg.
  destruct a as [t v|bs|p buf|p buf|p|e p buf]; try discriminate Hs; cbn [string_fits aty_of] in *.
  - destruct Hf as [Hz Hf]. destruct (up_to_nul buf) as [s|] eqn:HU; [|congruence].
    destruct (strb_out (AStr p buf) po s HL HU) as [F1 F2].
    exists (1 + cut_at po (zlen s)). split; [|auto].
    assert (ZS : 0 <= zlen s < zlen buf).
    { pose proof (zlen_nonneg _ s). destruct (visible_terminated po buf s HU HL) as (_ & _ & X). lia. }
    unfold str_len, pprec. destruct (sp_prec sp) as [|ds|].
    + subst po. rewrite strlen_up_to_nul, HU. reflexivity.
    + subst po. destruct (dec_val ds =? 0); [rewrite strlen_up_to_nul, HU; reflexivity|].
      rewrite (strnlen_cut buf s) by (auto; specialize (HL _ eq_refl); lia). reflexivity.
    + destruct Hp as (v & -> & -> & Hv). destruct (v <? 0) eqn:EV.
      * assert (TU : 2 ^ 63 <= to_u 64 v) by (unfold to_u; lia).
        rewrite (strnlen_cut buf s) by (auto; lia). cbn [option_map cut_at]. f_equal. lia.
      * rewrite to_u_id by lia. rewrite (strnlen_cut buf s) by (auto; lia). reflexivity.
  - destruct Hf as [Hz Hf]. destruct (up_to_nul buf) as [s|] eqn:HU; [|congruence].
    destruct (strb_out (AWStr p buf) po s HL HU) as [F1 F2].
    exists ((1 + cut_at po (zlen s)) * 4). split; [|auto].
    assert (YW : conv_kind sp = CkWStr) by (now apply Hty). rewrite YW in Hg.
    unfold str_len, pprec. destruct (sp_prec sp) as [|ds|]; try discriminate Hg.
    + subst po. rewrite strlen_up_to_nul, HU. reflexivity.
    + rewrite Hg in *. subst po. rewrite strlen_up_to_nul, HU. reflexivity.
Qed.

Lemma rel1_typed : forall widen sp t a a', spec_ok sp = true -> kind_of t = Some (conv_kind sp) ->
  rel1 widen (spec_class sp) t a a' -> is_strk (spec_class sp) = true -> (aty_of a' = TyWStr <-> conv_kind sp = CkWStr).
Proof.
  intros widen sp t a a' Hok Hk (ty & P & _ & A & _ & _ & _ & _ & _) Hs.
  destruct (param_kind _ _ Hk) as (ty' & P' & D). rewrite P in P'. apply some_inj in P'. subst ty'.
  rewrite A. rewrite spec_class_kind in Hs by auto. destruct (conv_kind sp); try discriminate Hs; subst ty; split; congruence.
Qed.

Lemma related_inv : forall w k ks t ts args args', related w (k :: ks) (t :: ts) args args' ->
  exists a r a' r', args = a :: r /\ args' = a' :: r' /\ rel1 w k t a a' /\ related w ks ts r r'.
Proof. intros w k ks t ts [|a r] [|a' r'] H; try destruct H. eauto 10. Qed.

Lemma strings_image_width : forall ks dyn a r, strings_image (KWidth :: ks) dyn (a :: r) = strings_image ks dyn r.
Proof. reflexivity. Qed.
Lemma strings_image_prec : forall ks dyn a r v, take_int (promote a) = Some v ->
  strings_image (KPrec :: ks) dyn (a :: r) = strings_image ks (if v <? 0 then None else Some v) r.
Proof. intros ks dyn a r v T. cbn [strings_image]. now rewrite T. Qed.

(** The arguments of one conversion. *)
Lemma decls_step : forall widen sp f fs tpre apre ks ts args0 args dyn, length tpre = length apre ->
  spec_ok sp = true -> prec_stored sp = true ->
  kind_of (ft_type f) = Some (conv_kind sp) -> ft_width f = pwidth sp -> ft_prec f = pprec sp ->
  Forall2 arg_fine (spec_params sp ++ ks) args -> related widen (spec_params sp ++ ks) (frag_types f ++ ts) args0 args ->
  exists hd rest0 rest dyn', args = hd ++ rest /\ length hd = length (frag_types f) /\
    related widen ks ts rest0 rest /\ Forall2 arg_fine ks rest /\
    forall lens2, strlen_decls fs (length (apre ++ hd)) ((apre ++ hd) ++ rest) = Some lens2 ->
    exists lens1, strlen_decls (f :: fs) (length apre) (apre ++ args) = Some (lens1 ++ lens2) /\
      map fst lens1 = idx_from isStringType tpre (frag_types f) /\
      Forall2 fits (selb isStringType (frag_types f) hd) (map snd lens1) /\
      strings_image (map full (spec_params sp ++ ks)) dyn args =
        stored (selb isStringType (frag_types f) hd) (map snd lens1) ++ strings_image (map full ks) dyn' rest.
Proof.
  intros widen sp f fs tpre apre ks ts args0 args dyn HT Hok Hst Hk Ew Ep HA HR.
  rewrite (spec_types sp f Hk Ew Ep) in *.
  (* from the argument proper on *)
  assert (LAST : forall a0 a dyn1 po hd, rel1 widen (spec_class sp) (ft_type f) a0 a -> arg_fine (spec_class sp) a ->
    (is_strk (spec_class sp) = true -> forall n, po = Some n -> 0 <= n) ->
    match sp_prec sp with
    | PrNone => po = None
    | PrNum ds => po = if dec_val ds =? 0 then None else Some (dec_val ds)
    | PrStar => exists v, nth_error (apre ++ hd) (length (apre ++ hd) - 1) = Some (AInt (Ity true 4) v) /\
                  po = (if v <? 0 then None else Some v) /\ dyn1 = po /\ - 2 ^ 31 <= v < 2 ^ 31 /\ (0 < length (apre ++ hd))%nat
    end ->
    forall rest lens2, length (apre ++ hd) = (length apre + starred (ft_prec f) + starred (ft_width f))%nat ->
    strlen_decls fs (length (apre ++ hd ++ [a])) ((apre ++ hd ++ [a]) ++ rest) = Some lens2 ->
    exists lens1, strlen_decls (f :: fs) (length apre) (apre ++ hd ++ a :: rest) = Some (lens1 ++ lens2) /\
      map fst lens1 = (if isStringType (ft_type f) then [length (apre ++ hd)] else []) /\
      Forall2 fits (if isStringType (ft_type f) then [a] else []) (map snd lens1) /\
      strings_image (full (spec_class sp) :: map full ks) dyn1 (a :: rest) =
        stored (if isStringType (ft_type f) then [a] else []) (map snd lens1) ++ strings_image (map full ks) dyn1 rest).
  { intros a0 a dyn1 po hd HRel HOk Hpo Hpr rest lens2 HLen HD.
    pose proof (rel1_typed widen sp (ft_type f) a0 a Hok Hk HRel) as HTy.
    destruct HRel as (ty & _ & _ & _ & _ & _ & _ & HIs & _). destruct HOk as (Hw & Hf & Hkk & Hs).
    cbn [strlen_decls]. rewrite <- HLen.
    replace (apre ++ hd ++ a :: rest) with ((apre ++ hd) ++ a :: rest) by (now rewrite <- app_assoc).
    replace ((apre ++ hd ++ [a]) ++ rest) with ((apre ++ hd) ++ a :: rest) in HD by (rewrite <- !app_assoc; reflexivity).
    replace (length (apre ++ hd ++ [a])) with (S (length (apre ++ hd))) in HD by (rewrite !app_length; cbn; lia).
    rewrite HIs. destruct (is_strk (spec_class sp)) eqn:ES.
    - rewrite nth_error_app2 by lia. rewrite Nat.sub_diag. cbn [nth_error].
      rewrite HD.
      set (prev := nth_error ((apre ++ hd) ++ a :: rest) (length (apre ++ hd) - 1)).
      destruct (str_len_spec sp po prev a Hok Hst ES (Hs eq_refl) Hf (HTy eq_refl) (Hpo eq_refl)) as (n & L1 & L2 & L3).
      { destruct (sp_prec sp); auto. destruct Hpr as (v & N & -> & _ & RV & NZ). exists v. split; [|auto].
        subst prev. rewrite nth_error_app1 by lia. exact N. }
      rewrite Ep, L1. exists [(length (apre ++ hd), n)]. cbn [app map fst snd stored]. rewrite app_nil_r.
      split; [reflexivity|]. split; [reflexivity|]. split; [constructor; [exact L2|constructor]|].
      rewrite L3. unfold spec_class in *. destruct (sp_conv sp =? 115); [|discriminate ES].
      destruct (sp_prec sp) as [|ds|]; cbn [full].
      + rewrite Hpr. reflexivity.
      + rewrite Hpr. destruct (dec_val ds =? 0); reflexivity.
      + destruct Hpr as (v & _ & _ & -> & _). reflexivity.
    - exists []. cbn [app map stored]. split; [exact HD|]. split; [reflexivity|]. split; [constructor|].
      destruct (spec_class sp) as [| |[?|]| |] eqn:EK; try discriminate ES; try reflexivity.
      exfalso. unfold spec_class in EK. destruct (sp_conv sp =? 115), (sp_prec sp); discriminate EK. }
  assert (STAR : forall k a0 a, k = KWidth \/ k = KPrec -> rel1 widen k int_t a0 a -> arg_fine k a ->
    exists v, a = AInt (Ity true 4) v /\ take_int (promote a) = Some v /\ - 2 ^ 31 <= v < 2 ^ 31).
  { intros k a0 a Hkk (ty & _ & _ & _ & _ & _ & _ & _ & X) _.
    destruct (X Hkk) as (_ & v & -> & T). exists v. split; [reflexivity|]. split; [exact T|].
    apply take_int_range in T. pose proof (to_s_range 32 v ltac:(lia)). lia. }
  assert (SW : starred (ft_width f) = length (wstar (sp_width sp))) by (rewrite Ew; unfold pwidth; destruct (sp_width sp); reflexivity).
  assert (SP : starred (ft_prec f) = length (pstar (sp_prec sp))) by (rewrite Ep; unfold pprec; destruct (sp_prec sp); reflexivity).
  unfold spec_params, dyn_width, dyn_prec in *.
  destruct (sp_width sp) as [|dw|] eqn:WD; destruct (sp_prec sp) as [|dp|] eqn:PR; cbn [app wstar pstar length] in *;
    repeat match goal with
    | H : related _ (_ :: _) (_ :: _) _ _ |- _ => apply related_inv in H; destruct H as (? & ? & ? & ? & -> & -> & ? & H)
    | H : Forall2 arg_fine (_ :: _) (_ :: _) |- _ => inversion H; clear H; subst
    end;
    lazymatch goal with
    | HR : related widen ks ts ?r0 ?r, H : rel1 widen (spec_class sp) _ ?x ?a, HO : arg_fine (spec_class sp) ?a |- _ =>
      lazymatch goal with
      | H1 : rel1 widen KWidth _ ?w0 ?w, O1 : arg_fine KWidth ?w, H2 : rel1 widen KPrec _ ?p0 ?p, O2 : arg_fine KPrec ?p |- _ =>
          destruct (STAR KPrec p0 p ltac:(auto) H2 O2) as (v & EV & T & V); exists [w; p; a], r0, r, (if v <? 0 then None else Some v);
          pose proof (LAST x a (if v <? 0 then None else Some v) (if v <? 0 then None else Some v) [w; p] H HO) as LL
      | H1 : rel1 widen KWidth _ ?w0 ?w |- _ => exists [w; a], r0, r, dyn;
          pose proof (LAST x a dyn (match sp_prec sp with PrNum ds => if dec_val ds =? 0 then None else Some (dec_val ds) | _ => None end) [w] H HO) as LL
      | H2 : rel1 widen KPrec _ ?p0 ?p, O2 : arg_fine KPrec ?p |- _ =>
          destruct (STAR KPrec p0 p ltac:(auto) H2 O2) as (v & EV & T & V); exists [p; a], r0, r, (if v <? 0 then None else Some v);
          pose proof (LAST x a (if v <? 0 then None else Some v) (if v <? 0 then None else Some v) [p] H HO) as LL
      | _ => exists [a], r0, r, dyn;
          pose proof (LAST x a dyn (match sp_prec sp with PrNum ds => if dec_val ds =? 0 then None else Some (dec_val ds) | _ => None end) [] H HO) as LL
      end; rewrite ?PR in LL
    end; clear LAST; splits; auto; intros lens2 HD; rewrite !idx_from_cons, idx_from_nil; cbn [selb isStringType app];
    rewrite ?app_length, HT, ?app_nil_r in *; cbn [length app] in *;
    rewrite ?SW, ?SP, <- ?app_assoc in *; cbn [app] in *;
    (cbn [map]; change (full KWidth) with KWidth; change (full KPrec) with KPrec; rewrite ?strings_image_width; try (erewrite strings_image_prec by eassumption));
    (match type of LL with ?P -> _ => assert (P1 : P) end;
    [intros ES n E; first [discriminate E | destruct (v <? 0) eqn:EL; [discriminate E|]; apply some_inj in E; subst n; lia |
     destruct (dec_val dp =? 0); [discriminate E|]; apply some_inj in E; subst n;
     repeat match goal with HO : arg_fine (spec_class sp) _ |- _ => destruct HO as (_ & _ & HO & _) end;
     unfold spec_class in *; rewrite PR in *; destruct (sp_conv sp =? 115); [unfold class_ok in *; lia|discriminate ES]]|]);
    (specialize (LL P1); clear P1);
    (match type of LL with ?P -> _ => assert (P2 : P) end;
    [first [reflexivity | exists v; splits; auto; try lia; rewrite nth_error_app2 by lia;
       match goal with |- nth_error _ ?k = _ => first [replace k with 0%nat by lia | replace k with 1%nat by lia] end;
       cbn [nth_error]; now rewrite EV]|]);
    (specialize (LL P2); clear P2);
    (lazymatch type of HD with strlen_decls _ ?n (_ ++ ?l) = _ =>
    match type of LL with forall r l2, _ -> strlen_decls _ ?n' _ = _ -> _ => replace n' with n in LL by lia end end);
    (edestruct LL as (lens1 & L1 & L2 & L3 & L4); [lia|rewrite <- app_assoc; exact HD|]);
    (exists lens1; splits; auto; try (etransitivity; [exact L2|]; destruct (isStringType (ft_type f)); [f_equal; lia|reflexivity])).
Qed.

Lemma decls_spec : forall widen gs fs, Forall2 fragment_of gs fs ->
  forall tpre apre args0 args dyn, length tpre = length apre -> Forall (fun g => convs g <> []) gs ->
  fmt_ok (concat gs) = true -> stored_ok (concat gs) = true -> Forall2 arg_fine (params (concat gs)) args ->
  related widen (params (concat gs)) (arg_types fs) args0 args ->
  exists lens, strlen_decls fs (length apre) (apre ++ args) = Some lens /\
    map fst lens = idx_from isStringType tpre (arg_types fs) /\
    Forall2 fits (selb isStringType (arg_types fs) args) (map snd lens) /\
    stored (selb isStringType (arg_types fs) args) (map snd lens) = strings_image (map full (params (concat gs))) dyn args.
Proof.
  intros widen gs fs HG. induction HG as [|g f gs fs Hg HG IH]; intros tpre apre args0 args dyn HT HN Hok Hst HA HR; cbn [concat] in *.
  - inversion HA; subst. exists []. cbn. auto.
  - rewrite params_app in *. rewrite fmt_ok_app in Hok. apply andb_true_iff in Hok. destruct Hok as [Hok1 Hok2].
    unfold stored_ok in Hst. rewrite convs_app, forallb_app in Hst. apply andb_true_iff in Hst. destruct Hst as [Hs1 Hs2].
    rewrite arg_types_cons in *. destruct Hg as [_ Hg]. inversion HN as [|? ? HN1 HN2]; subst.
    destruct (convs g) as [|sp [|sp2 r]] eqn:EC; [congruence| |destruct Hg].
    destruct Hg as (Hk & Ew & Ep).
    destruct (convs_one g sp EC) as (pre & post & -> & C1 & C2).
    assert (PE : params (pre ++ Conv sp :: post) = spec_params sp).
    { rewrite params_app, (params_lits pre C1). cbn [app].
      change (params (Conv sp :: post)) with (spec_params sp ++ params post). rewrite (params_lits post C2). apply app_nil_r. }
    rewrite PE in *.
    rewrite fmt_ok_app in Hok1. apply andb_true_iff in Hok1. destruct Hok1 as [_ Hok1].
    unfold fmt_ok in Hok1. cbn [forallb piece_ok] in Hok1. apply andb_true_iff in Hok1. destruct Hok1 as [Hsp _].
    cbn [forallb] in Hs1. rewrite andb_true_r in Hs1.
    destruct (decls_step widen sp f fs tpre apre _ _ args0 args dyn HT Hsp Hs1 Hk Ew Ep HA HR)
      as (hd & rest0 & rest & dyn' & -> & HL & HR' & HA' & ST).
    destruct (IH (tpre ++ frag_types f) (apre ++ hd) rest0 rest dyn') as (lens2 & D1 & D2 & D3 & D4); auto.
    { rewrite !app_length. lia. }
    destruct (ST lens2 D1) as (lens1 & E1 & E2 & E3 & E4).
    assert (SA : selb isStringType (frag_types f ++ arg_types fs) (hd ++ rest)
      = selb isStringType (frag_types f) hd ++ selb isStringType (arg_types fs) rest).
    { clear - HL. revert hd HL. generalize (frag_types f). induction l as [|t l IH]; intros [|a hd] H; try discriminate H; [reflexivity|].
      cbn [app selb]. rewrite IH by (cbn in H; lia). destruct (isStringType t); reflexivity. }
    exists (lens1 ++ lens2). rewrite SA, !map_app. splits.
    + exact E1.
    + rewrite idx_from_app, E2, D2. reflexivity.
    + apply Forall2_app; assumption.
    + rewrite <- (map_app full), E4, <- D4. apply stored_app. apply Forall2_len in E3. exact E3.
Qed.
