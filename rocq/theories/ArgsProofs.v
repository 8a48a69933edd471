(** Proofs about recording and compressing arguments. *)
From Verif Require Import Base BaseProofs Packer PackerProofs Chars Fmt FrontFmt FrontFmtProofs Args Printf.

(** Memory equality, pointwise. *)
Definition meq (m m' : mem) : Prop := forall x, m x = m' x.

Lemma store_meq : forall m m' a bs, meq m m' -> meq (store m a bs) (store m' a bs).
Proof. intros m m' a bs H x. unfold store. destruct ((a <=? x) && (x <? a + zlen bs)); auto. Qed.

Lemma meq_trans : forall a b c, meq a b -> meq b c -> meq a c.
Proof. intros a b c H1 H2 x. now rewrite H1. Qed.

Lemma store_app : forall m a x y, meq (store (store m a x) (a + zlen x) y) (store m a (x ++ y)).
Proof.
  intros m a x y z. unfold store. rewrite zlen_app.
  pose proof (zlen_nonneg _ x). pose proof (zlen_nonneg _ y).
  destruct ((a + zlen x <=? z) && (z <? a + zlen x + zlen y)) eqn:E1.
  - replace ((a <=? z) && (z <? a + (zlen x + zlen y))) with true by lia.
    unfold zlen in *. rewrite app_nth2 by lia. f_equal. lia.
  - destruct ((a <=? z) && (z <? a + zlen x)) eqn:E2.
    + replace ((a <=? z) && (z <? a + (zlen x + zlen y))) with true by lia.
      unfold zlen in *. rewrite app_nth1 by lia. reflexivity.
    + replace ((a <=? z) && (z <? a + (zlen x + zlen y))) with false by lia. reflexivity.
Qed.

Lemma store_nil : forall m a, meq (store m a []) m.
Proof. intros m a x. apply store_outside. rewrite zlen_nil. lia. Qed.

Lemma store_unfold_outside : forall m a bs x, ~ (a <= x < a + zlen bs) -> store m a bs x = m x.
Proof. intros. apply store_outside. lia. Qed.

Lemma meq_load : forall m m' a n, meq m m' -> load m a n = load m' a n.
Proof. intros. apply load_ext. intros. apply H. Qed.

(** Well-formed arguments. *)
Definition wchar_ok (w : Z) : Prop := - 2 ^ 31 <= w < 2 ^ 31.

Definition wf_arg (a : arg) : Prop :=
  match a with
  | AInt t v => (it_bytes t = 1 \/ it_bytes t = 2 \/ it_bytes t = 4 \/ it_bytes t = 8)%nat /\ in_range t v
  | AFlt bs => (length bs = 4 \/ length bs = 8 \/ length bs = 16)%nat /\ Forall is_byte bs
  | AStr p buf => 0 <= p < 2 ^ 64 /\ Forall is_byte buf
  | AWStr p buf => 0 <= p < 2 ^ 64 /\ Forall wchar_ok buf
  | AVoid p | APtr _ p _ => 0 <= p < 2 ^ 64
  end.

Lemma strlen_bound : forall buf n, strlen buf = Some n -> 0 <= n < zlen buf.
Proof.
  induction buf as [|c r IH]; intros n H; cbn [strlen] in H; [discriminate|].
  rewrite zlen_cons. pose proof (zlen_nonneg _ r).
  destruct (c =? 0); [apply (f_equal (fun o => match o with Some x => x | None => 0 end)) in H; lia|].
  destruct (strlen r) as [k|] eqn:E; [|discriminate].
  specialize (IH k eq_refl). apply (f_equal (fun o => match o with Some x => x | None => 0 end)) in H. lia.
Qed.

Lemma strlen_up_to_nul : forall buf, strlen buf = option_map zlen (up_to_nul buf).
Proof.
  induction buf as [|c r IH]; [reflexivity|]. cbn [strlen up_to_nul].
  destruct (c =? 0); [reflexivity|]. rewrite IH. destruct (up_to_nul r); [|reflexivity].
  cbn [option_map]. rewrite zlen_cons. f_equal. lia.
Qed.

Lemma up_to_nul_firstn : forall buf s, up_to_nul buf = Some s -> s = firstn (length s) buf.
Proof.
  induction buf as [|c r IH]; intros s H; cbn [up_to_nul] in H; [discriminate|].
  destruct (c =? 0); [injection H as <-; reflexivity|].
  destruct (up_to_nul r) as [t|]; [|discriminate]. injection H as <-.
  cbn [length firstn]. f_equal. auto.
Qed.

Lemma up_to_nul_no0 : forall buf s, up_to_nul buf = Some s -> Forall (fun c => c <> 0) s.
Proof.
  induction buf as [|c r IH]; intros s H; cbn [up_to_nul] in H; [discriminate|].
  destruct (c =? 0) eqn:E; [injection H as <-; constructor|].
  destruct (up_to_nul r) as [t|]; [|discriminate]. injection H as <-.
  constructor; [lia|auto].
Qed.

Lemma limit_len_le : forall t prev len, 0 <= prev -> 0 <= len -> 0 <= limit_len t prev len <= len.
Proof.
  intros t prev len Hp Hl. unfold limit_len.
  pose proof (to_u_range 32 t ltac:(lia)).
  destruct ((0 <=? t) && (to_u 32 t <? len)) eqn:E1; [lia|].
  destruct ((t =? PT_STRING_WITH_DYNAMIC_PRECISION) && (prev <? len)) eqn:E2; lia.
Qed.

(** The staged form of one argument. *)
Definition img (t n : Z) (a : arg) : list Z :=
  if is_string_arg a && negb (t <=? PT_NON_STRING)
  then le_bytes 4 n ++ firstn (Z.to_nat n) (string_bytes a)
  else obj_bytes a.

Lemma obj_bytes_zlen : forall a, zlen (obj_bytes a) = sizeof (aty_of a).
Proof. intros []; cbn [obj_bytes aty_of sizeof]; rewrite ?le_bytes_zlen; reflexivity. Qed.

Lemma wbytes_zlen : forall ws, zlen (wbytes ws) = 4 * zlen ws.
Proof.
  unfold wbytes. induction ws; [reflexivity|]. cbn [flat_map].
  rewrite zlen_app, le_bytes_zlen, zlen_cons, IHws. lia.
Qed.

Lemma getArgSize_facts : forall t prev a s, 0 <= prev -> getArgSize t prev 0 a = Some s ->
  0 <= as_prec s /\ 0 <= as_string s /\ as_bytes s = zlen (img t (as_string s) a).
Proof.
  intros t prev a s Hp H. unfold img.
  destruct a as [ty v|bs|p buf|p buf|p|e p buf]; cbn [getArgSize is_string_arg andb] in *.
  - injection H as <-. cbn [as_prec as_string as_bytes]. rewrite obj_bytes_zlen.
    repeat split; try lia. destruct (t =? _); auto. cbn. apply to_u_range. lia.
  - injection H as <-. cbn [as_prec as_string as_bytes]. rewrite obj_bytes_zlen.
    repeat split; try lia. destruct (t =? _); auto. cbn. lia.
  - destruct (t <=? PT_NON_STRING); cbn [negb].
    + injection H as <-. cbn [as_prec as_string as_bytes]. rewrite obj_bytes_zlen. repeat split; auto; lia.
    + destruct (strlen buf) as [len|] eqn:E; [|discriminate]. apply strlen_bound in E.
      injection H as <-. cbn [as_prec as_string as_bytes string_bytes].
      destruct (limit_len_le t prev len) as [L1 L2]; try lia.
      rewrite zlen_app, le_bytes_zlen. unfold zlen at 1. rewrite firstn_length.
      repeat split; try lia. unfold zlen in *. lia.
  - destruct (t <=? PT_NON_STRING); cbn [negb].
    + injection H as <-. cbn [as_prec as_string as_bytes]. rewrite obj_bytes_zlen. repeat split; auto; lia.
    + destruct (strlen buf) as [len|] eqn:E; [|discriminate]. apply strlen_bound in E.
      injection H as <-. cbn [as_prec as_string as_bytes string_bytes].
      destruct (limit_len_le t prev len) as [L1 L2]; try lia.
      pose proof (wbytes_zlen buf).
      rewrite zlen_app, le_bytes_zlen. unfold zlen at 1. rewrite firstn_length.
      repeat split; try lia. unfold zlen in *. lia.
  - injection H as <-. cbn [as_prec as_string as_bytes]. rewrite obj_bytes_zlen. repeat split; auto; lia.
  - injection H as <-. cbn [as_prec as_string as_bytes]. rewrite obj_bytes_zlen.
    repeat split; try lia. destruct (t =? _); auto. cbn. lia.
Qed.

Lemma store_argument_img : forall m s a t n m' s', store_argument m s a t n = Some (m', s') ->
  0 <= n -> (is_string_arg a && negb (t <=? PT_NON_STRING) = true -> n <= zlen (string_bytes a)) ->
  meq m' (store m s (img t n a)) /\ s' = s + zlen (img t n a).
Proof.
  intros m s a t n m' s' H Hn Hs. unfold store_argument, img in *.
  destruct (is_string_arg a && negb (t <=? PT_NON_STRING)).
  - destruct (2 ^ 32 - 1 <? n) eqn:E; [discriminate|].
    assert (E1 : m' = store (store m s (le_bytes 4 n)) (s + 4) (firstn (Z.to_nat n) (string_bytes a)) /\ s' = s + 4 + n)
      by (split; congruence). destruct E1 as [-> ->].
    split.
    + replace (s + 4) with (s + zlen (le_bytes 4 n)) by (rewrite le_bytes_zlen; lia). apply store_app.
    + rewrite zlen_app, le_bytes_zlen. unfold zlen in *. rewrite firstn_length. lia.
  - assert (E1 : m' = store m s (obj_bytes a) /\ s' = s + sizeof (aty_of a)) by (split; congruence).
    destruct E1 as [-> ->]. rewrite obj_bytes_zlen. split; [intro; reflexivity|reflexivity].
Qed.

Fixpoint imgs (ts ns : list Z) (args : list arg) : list Z :=
  match ts, ns, args with
  | t :: ts', n :: ns', a :: r => img t n a ++ imgs ts' ns' r
  | _, _, _ => []
  end.

Lemma string_size_le : forall t prev a s, 0 <= prev -> getArgSize t prev 0 a = Some s ->
  is_string_arg a && negb (t <=? PT_NON_STRING) = true -> as_string s <= zlen (string_bytes a).
Proof.
  intros t prev a s Hp H E. apply andb_true_iff in E. destruct E as [E1 E2].
  apply negb_true_iff in E2.
  destruct a; try discriminate E1; cbn [getArgSize] in H; rewrite E2 in H;
    (destruct (strlen buf) as [len|] eqn:L; [|discriminate]); apply strlen_bound in L;
    injection H as <-; cbn [as_string string_bytes]; pose proof (limit_len_le t prev len Hp ltac:(lia));
    rewrite ?wbytes_zlen; lia.
Qed.

Lemma store_arguments_imgs : forall ts args prev m s n ns m' e, 0 <= prev ->
  getArgSizes ts prev args = Some (n, ns) ->
  store_arguments m s ts ns args = Some (m', e) ->
  meq m' (store m s (imgs ts ns args)) /\ e = s + n /\ n = zlen (imgs ts ns args).
Proof.
  induction ts as [|t ts IH]; intros [|a args] prev m s n ns m' e Hp HG HS; cbn [getArgSizes] in HG; try discriminate.
  - assert (n = 0 /\ ns = []) by (split; congruence). destruct H as [-> ->].
    cbn [store_arguments imgs] in *.
    assert (m' = m /\ e = s) by (split; congruence). destruct H as [-> ->].
    split; [intro x; symmetry; apply store_nil|]. rewrite zlen_nil. lia.
  - destruct (getArgSize t prev 0 a) as [sz|] eqn:EG; [|discriminate].
    destruct (getArgSizes ts (as_prec sz) args) as [[k ks]|] eqn:EK; [|discriminate].
    assert (n = as_bytes sz + k /\ ns = as_string sz :: ks) by (split; congruence). destruct H as [-> ->]. clear HG.
    cbn [store_arguments imgs] in *.
    destruct (store_argument m s a t (as_string sz)) as [[m1 s1]|] eqn:E1; [|discriminate].
    destruct (getArgSize_facts t prev a sz Hp EG) as (P1 & P2 & P3).
    apply store_argument_img in E1; auto; [|intro; apply (string_size_le t prev a sz); auto].
    destruct E1 as [M1 ->].
    destruct (IH args (as_prec sz) m1 _ k ks m' e P1 EK HS) as (M2 & -> & K).
    rewrite zlen_app. split; [|lia].
    eapply meq_trans; [exact M2|]. eapply meq_trans; [apply store_meq; exact M1|]. apply store_app.
Qed.

(** The arguments in the order compression uses them. *)
Definition is_strp (t : Z) : bool := PT_NON_STRING <? t.

Definition pval_of (a : arg) : pval :=
  match a with
  | AInt t v => pval_of_int t v
  | AFlt bs => PFlt bs
  | AStr p _ | AWStr p _ | AVoid p | APtr _ p _ => PPtr p
  end.

Fixpoint pvals (ts : list Z) (args : list arg) : list pval :=
  match ts, args with
  | t :: ts', a :: r => if is_strp t then pvals ts' r else pval_of a :: pvals ts' r
  | _, _ => []
  end.

Definition str_out (n : Z) (a : arg) : list Z :=
  firstn (Z.to_nat n) (string_bytes a) ++ repeat 0 (Z.to_nat (characterWidth (aty_of a))).

Fixpoint strs (ts ns : list Z) (args : list arg) : list Z :=
  match ts, ns, args with
  | t :: ts', n :: ns', a :: r =>
      if is_strp t then str_out n a ++ strs ts' ns' r else strs ts' ns' r
  | _, _, _ => []
  end.

(** Every %s argument really is a char or wchar_t pointer. *)
Fixpoint strings_ok (ts : list Z) (args : list arg) : Prop :=
  match ts, args with
  | t :: ts', a :: r => (is_strp t = true -> is_string_arg a = true) /\ strings_ok ts' r
  | _, _ => True
  end.

(** Sizes that fit the arguments they belong to. *)
Fixpoint sizes_ok (ts ns : list Z) (args : list arg) : Prop :=
  match ts, ns, args with
  | [], [], [] => True
  | t :: ts', n :: ns', a :: r =>
      (is_strp t = true -> 0 <= n < 2 ^ 32 /\ n <= zlen (string_bytes a)) /\ sizes_ok ts' ns' r
  | _, _, _ => False
  end.

Lemma pval_of_wf : forall a, wf_arg a -> wf_pval (pval_of a).
Proof.
  intros [t v|bs|p buf|p buf|p|e p buf] H; cbn [pval_of wf_pval wf_arg] in *; try tauto.
  destruct H as [Ht Hr]. unfold pval_of_int, in_range, it_bits in *. destruct t as [s n]; cbn [it_signed it_bytes] in *.
  destruct s, Ht as [->|[->|[->| ->]]]; cbn [Nat.eqb wf_pval]; unfold uint_size; cbn in Hr |- *; lia.
Qed.

Lemma cast_le_val : forall t v, (0 < it_bytes t)%nat -> in_range t v ->
  cast t (le_val (le_bytes (it_bytes t) v)) = v.
Proof.
  intros t v Ht Hr. rewrite le_val_le_bytes, pow256_pow2 by lia.
  rewrite <- (cast_id t v) at 2 by auto. apply cast_cong. fold (it_bits t).
  unfold it_bits. rewrite Z.mod_mod by lia. reflexivity.
Qed.

Lemma read_val_obj : forall a min p, wf_arg a ->
  load min p (length (obj_bytes a)) = obj_bytes a -> read_val (aty_of a) min p = pval_of a.
Proof.
  intros [t v|bs|q buf|q buf|q|e q buf] min p H L; cbn [obj_bytes aty_of read_val pval_of wf_arg] in *;
    rewrite ?le_bytes_length in L; rewrite L; auto;
    try (rewrite le_val_le_bytes; f_equal; change (256 ^ Z.of_nat 8) with (2 ^ 64); apply Z.mod_small; tauto).
  destruct H as [Ht Hr]. rewrite cast_le_val; auto; lia.
Qed.

(** First pass. *)
Lemma pass1 : forall ts ns args nib min s, sizes_ok ts ns args -> strings_ok ts args ->
  Forall wf_arg args ->
  load min (cs_in s) (length (imgs ts ns args)) = imgs ts ns args ->
  let r := compress_pass (map aty_of args) nib ts false min s in
  pack_seq (cs_mem s) nib (cs_nib s) (cs_out s) (cs_hi s) (pvals ts args)
    = (cs_mem r, cs_out r, cs_hi r) /\ cs_in r = cs_in s + zlen (imgs ts ns args).
Proof.
  induction ts as [|t ts IH]; intros [|n ns] [|a args] nib min s Hsz Hso Hw Hl; try contradiction Hsz.
  - cbn [map compress_pass pvals pack_seq imgs]. rewrite zlen_nil. split; [reflexivity|lia].
  - cbn [sizes_ok strings_ok imgs] in *. destruct Hsz as [Hn Hsz]. destruct Hso as [Ha Hso].
    inversion Hw as [|? ? Hwa Hw']; subst.
    apply load_split in Hl. destruct Hl as [L1 L2].
    cbn [map compress_pass pvals]. rewrite zlen_app.
    unfold img in *. unfold is_strp in *. unfold compressSingle.
    destruct (PT_NON_STRING <? t) eqn:Et.
    + rewrite Ha in * by auto. replace (t <=? PT_NON_STRING) with false in * by lia. cbn [negb andb] in *.
      destruct (Hn eq_refl) as [N1 N2].
      rewrite app_length, le_bytes_length in L1. 
      assert (V : le_val (load min (cs_in s) 4) = n).
      { rewrite load_app in L1. apply app_inj_length in L1; [|now rewrite load_length, le_bytes_length].
        destruct L1 as [L1 _]. rewrite L1, le_val_le_bytes. apply Z.mod_small. exact N1. }
      rewrite V. 
      destruct (IH ns args nib min (Cst (cs_nib s) (cs_in s + 4 + n) (cs_out s) (cs_mem s) (cs_hi s)))
        as [P1 P2]; auto.
      { cbn [cs_in]. rewrite zlen_app, le_bytes_zlen in L2.
        replace (zlen (firstn (Z.to_nat n) (string_bytes a))) with n in L2
          by (unfold zlen in *; rewrite firstn_length; lia).
        replace (cs_in s + 4 + n) with (cs_in s + (Z.of_nat 4 + n)) by lia. exact L2. }
      split; [exact P1|]. rewrite P2. cbn [cs_in]. rewrite zlen_app, le_bytes_zlen.
      unfold zlen in *; rewrite firstn_length. lia.
    + replace (t <=? PT_NON_STRING) with true in * by lia. rewrite andb_false_r in *.
      rewrite (read_val_obj a min (cs_in s) Hwa L1).
      cbn [pack_seq].
      match goal with |- context [compress_pass _ _ _ _ _ ?s1] => set (s2 := s1) end.
      destruct (IH ns args nib min s2) as [P1 P2]; auto.
      { subst s2. cbn [cs_in]. rewrite obj_bytes_zlen in L2. exact L2. }
      split; [exact P1|]. rewrite P2. subst s2. cbn [cs_in]. rewrite obj_bytes_zlen. lia.
Qed.

(** Second pass. *)
Lemma pass2 : forall ts ns args nib min s, sizes_ok ts ns args -> strings_ok ts args ->
  load min (cs_in s) (length (imgs ts ns args)) = imgs ts ns args ->
  let r := compress_pass (map aty_of args) nib ts true min s in
  meq (cs_mem r) (store (cs_mem s) (cs_out s) (strs ts ns args)) /\
  cs_out r = cs_out s + zlen (strs ts ns args) /\
  cs_in r = cs_in s + zlen (imgs ts ns args) /\
  cs_hi s <= cs_hi r <= Z.max (cs_hi s) (cs_out r).
Proof.
  induction ts as [|t ts IH]; intros [|n ns] [|a args] nib min s Hsz Hso Hl; try contradiction Hsz.
  - cbn [map compress_pass strs imgs]. rewrite zlen_nil. split; [intro x; symmetry; apply store_nil|]. lia.
  - cbn [sizes_ok strings_ok imgs strs] in *. destruct Hsz as [Hn Hsz]. destruct Hso as [Ha Hso].
    apply load_split in Hl. destruct Hl as [L1 L2].
    cbn [map compress_pass]. rewrite zlen_app.
    unfold img in *. unfold is_strp in *. unfold compressSingle.
    destruct (PT_NON_STRING <? t) eqn:Et.
    + rewrite Ha in * by auto. replace (t <=? PT_NON_STRING) with false in * by lia. cbn [negb andb] in *.
      destruct (Hn eq_refl) as [N1 N2].
      rewrite app_length, le_bytes_length in L1.
      rewrite load_app in L1. apply app_inj_length in L1; [|now rewrite load_length, le_bytes_length].
      destruct L1 as [L1 L3].
      assert (V : le_val (load min (cs_in s) 4) = n).
      { rewrite L1, le_val_le_bytes. apply Z.mod_small. exact N1. }
      rewrite V.
      assert (FL : length (firstn (Z.to_nat n) (string_bytes a)) = Z.to_nat n).
      { rewrite firstn_length. unfold zlen in N2. lia. }
      rewrite FL in L3. change (Z.of_nat 4) with 4 in L3. rewrite L3.
      match goal with |- context [compress_pass _ _ _ _ _ ?s1] => set (s2 := s1) end.
      assert (CW : 0 <= characterWidth (aty_of a)).
      { assert (I : is_string_arg a = true) by auto. destruct a; try discriminate I; cbn; lia. }
      destruct (IH ns args nib min s2) as (P1 & P2 & P3 & P4); auto.
      { subst s2. cbn [cs_in]. rewrite zlen_app, le_bytes_zlen in L2.
        replace (zlen (firstn (Z.to_nat n) (string_bytes a))) with n in L2 by (unfold zlen; lia).
        replace (cs_in s + 4 + n) with (cs_in s + (Z.of_nat 4 + n)) by lia. exact L2. }
      subst s2. cbn [cs_mem cs_out cs_in cs_hi] in *.
      assert (SL : zlen (str_out n a) = n + characterWidth (aty_of a)).
      { unfold str_out. rewrite zlen_app. unfold zlen. rewrite FL, repeat_length. lia. }
      rewrite zlen_app, SL in *. repeat split; try lia.
      * eapply meq_trans; [exact P1|].
        eapply meq_trans with (b := store (store (cs_mem s) (cs_out s) (str_out n a)) (cs_out s + zlen (str_out n a)) (strs ts ns args)).
        -- rewrite SL. replace (cs_out s + n + characterWidth (aty_of a)) with (cs_out s + (n + characterWidth (aty_of a))) by lia.
           apply store_meq. unfold str_out.
           replace (cs_out s + n) with (cs_out s + zlen (firstn (Z.to_nat n) (string_bytes a))) by (unfold zlen; lia).
           apply store_app.
        -- apply store_app.
      * rewrite P3, zlen_app, le_bytes_zlen. unfold zlen. rewrite FL. lia.
      * pose proof (zlen_nonneg _ (strs ts ns args)). lia.
    + replace (t <=? PT_NON_STRING) with true in * by lia. rewrite andb_false_r in *.
      match goal with |- context [compress_pass _ _ _ _ _ ?s1] => set (s2 := s1) end.
      destruct (IH ns args nib min s2) as (P1 & P2 & P3 & P4); auto.
      { subst s2. cbn [cs_in]. rewrite obj_bytes_zlen in L2. exact L2. }
      subst s2. cbn [cs_mem cs_out cs_in cs_hi] in *. rewrite obj_bytes_zlen.
      repeat split; auto; try lia.
Qed.

Lemma pvals_wf : forall ts args, Forall wf_arg args -> Forall wf_pval (pvals ts args).
Proof.
  induction ts as [|t ts IH]; intros [|a args] H; cbn [pvals]; try constructor.
  inversion H; subst. destruct (is_strp t); auto. constructor; auto. now apply pval_of_wf.
Qed.

Lemma nibbles_from_ext : forall codes m m' a (first : bool),
  (forall y, a <= y < a + (zlen codes + (if first then 1 else 2)) / 2 -> m' y = m y) ->
  nibbles_from m a first codes -> nibbles_from m' a first codes.
Proof.
  induction codes as [|c cs IH]; intros m m' a first K H; cbn [nibbles_from] in *; auto.
  destruct H as [H1 H2]. rewrite zlen_cons in K. pose proof (zlen_nonneg _ cs).
  split.
  - rewrite K; auto. destruct first; lia.
  - eapply IH; [|exact H2]. intros y Hy. apply K. destruct first; cbn [negb] in *; lia.
Qed.

(** Compression of a staged message. *)
Lemma compress_spec : forall ts ns args min inp mout o r,
  sizes_ok ts ns args -> strings_ok ts args -> Forall wf_arg args ->
  load min inp (length (imgs ts ns args)) = imgs ts ns args ->
  compress (map aty_of args) (zlen (pvals ts args)) ts min inp mout o = r ->
  let xs := pvals ts args in
  let e := o + (zlen xs + 1) / 2 + zlen (pvalues xs) in
  block_at (cs_mem r) o xs /\
  load (cs_mem r) e (length (strs ts ns args)) = strs ts ns args /\
  cs_out r = e + zlen (strs ts ns args) /\
  cs_in r = inp + zlen (imgs ts ns args) /\
  o <= cs_hi r <= cs_out r + 7 /\
  (forall y, y < o \/ (cs_hi r <= y /\ cs_out r <= y) -> cs_mem r y = mout y).
Proof.
  intros ts ns args min inp mout o r Hsz Hso Hw Hl E xs e. subst xs.
  unfold compress in E.
  set (s0 := Cst 0 inp (o + (zlen (pvals ts args) + 1) / 2) mout o) in *.
  set (s1 := compress_pass (map aty_of args) o ts false min s0) in *.
  destruct (pass1 ts ns args o min s0 Hsz Hso Hw Hl) as [P1 _]. fold s1 in P1.
  cbn [cs_mem cs_nib cs_out cs_hi s0] in P1.
  pose proof (pvals_wf ts args Hw) as Wx.
  destruct (pack_seq_block _ _ _ _ _ _ _ Wx P1) as [B1 B2].
  apply pack_seq_spec in P1; auto; try lia.
  destruct P1 as (_ & _ & _ & _ & H5 & H6).
  set (s2 := Cst 0 inp (cs_out s1) (cs_mem s1) (cs_hi s1)) in *.
  destruct (pass2 ts ns args o min s2 Hsz Hso Hl) as (Q1 & Q2 & Q3 & Q4).
  rewrite E in *. cbn [cs_mem cs_out cs_in cs_hi s2] in *.
  fold e in B2. pose proof (zlen_nonneg _ (strs ts ns args)). pose proof (zlen_nonneg _ (pvals ts args)).
  pose proof (zlen_nonneg _ (pvalues (pvals ts args))).
  assert (K : forall y, y < e -> cs_mem r y = cs_mem s1 y).
  { intros y Hy. rewrite Q1. apply store_outside. lia. }
  split.
  { destruct B1 as [N V]. split.
    - revert N. apply nibbles_from_ext. intros y Hy. cbv iota in Hy. rewrite pcodes_zlen in Hy. apply K. lia.
    - rewrite <- V at 2. apply load_ext. intros y Hy. apply K. unfold zlen in *. lia. }
  split.
  { rewrite (meq_load _ _ _ _ Q1), B2. apply load_store_same. }
  split; [lia|]. split; [exact Q3|]. split; [lia|].
  intros y Hy. rewrite Q1. rewrite store_outside by lia. apply H6. lia.
Qed.
