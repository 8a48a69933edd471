(** Proofs about the model of Packer.h. *)
From Verif Require Import Base BaseProofs Packer.

(** Values [pack] can be given. *)
Definition uint_size (n : nat) : Prop := n = 1%nat \/ n = 2%nat \/ n = 4%nat \/ n = 8%nat.

Definition wf_pval (x : pval) : Prop :=
  match x with
  | PUns n v => uint_size n /\ 0 <= v < 2 ^ (8 * Z.of_nat n)
  | PS32 v => - 2 ^ 31 <= v < 2 ^ 31
  | PS64 v => - 2 ^ 63 <= v < 2 ^ 63
  | PPtr v => 0 <= v < 2 ^ 64
  | PFlt bs => (length bs = 4%nat \/ length bs = 8%nat \/ length bs = 16%nat)
               /\ Forall is_byte bs
  end.

(** Bytes emitted and code returned, as closed forms. *)
Definition ubytes (v : Z) : list Z := le_bytes (Z.to_nat (num_bytes v)) v.

Definition pbytes (x : pval) : list Z :=
  match x with
  | PUns _ v => ubytes v
  | PS32 v => if (0 <=? v) || (v <=? - 2 ^ 24) then ubytes (v mod 2 ^ 32) else ubytes (- v)
  | PS64 v => if (0 <=? v) || (v <=? - 2 ^ 56) then ubytes (v mod 2 ^ 64) else ubytes (- v)
  | PPtr v => ubytes v
  | PFlt bs => bs
  end.

Definition pcode (x : pval) : Z :=
  match x with
  | PUns _ v => num_bytes v
  | PS32 v => if (0 <=? v) || (v <=? - 2 ^ 24) then num_bytes (v mod 2 ^ 32) else 8 + num_bytes (- v)
  | PS64 v => if (0 <=? v) || (v <=? - 2 ^ 56) then num_bytes (v mod 2 ^ 64) else 8 + num_bytes (- v)
  | PPtr v => num_bytes v
  | PFlt bs => zlen bs
  end.

(** Bytes of memory a packing call may modify. *)
Definition psize (x : pval) : Z :=
  match x with
  | PUns n _ => Z.of_nat n
  | PS32 _ => 4
  | PS64 _ | PPtr _ => 8
  | PFlt bs => zlen bs
  end.

Ltac cases_num_bytes :=
  unfold num_bytes in *;
  repeat match goal with
  | |- context [if ?b then _ else _] => destruct b eqn:?
  | H : context [if ?b then _ else _] |- _ => destruct b eqn:?
  end.

Lemma num_bytes_range : forall v, 1 <= num_bytes v <= 8.
Proof. intros; cases_num_bytes; lia. Qed.

Lemma num_bytes_fits : forall v, 0 <= v < 2 ^ 64 -> v < 256 ^ num_bytes v.
Proof. intros; cases_num_bytes; cbn in *; lia. Qed.

Lemma num_bytes_le : forall v k, 0 <= v -> 1 <= k <= 8 -> v < 256 ^ k -> num_bytes v <= k.
Proof.
  intros v k Hv Hk H.
  assert (k = 1 \/ k = 2 \/ k = 3 \/ k = 4 \/ k = 5 \/ k = 6 \/ k = 7 \/ k = 8) as D by lia.
  destruct D as [->|[->|[->|[->|[->|[->|[->| ->]]]]]]];
    cases_num_bytes; cbn in *; lia.
Qed.

Lemma num_bytes_minimal : forall v k, 0 <= v < 2 ^ 64 -> 1 <= k -> v < 256 ^ k -> num_bytes v <= k.
Proof.
  intros. destruct (Z_le_dec k 8).
  - apply num_bytes_le; lia.
  - pose proof (num_bytes_range v); lia.
Qed.

Lemma ubytes_zlen : forall v, zlen (ubytes v) = num_bytes v.
Proof. intros; unfold ubytes; rewrite le_bytes_zlen; pose proof (num_bytes_range v); lia. Qed.

Lemma ubytes_length : forall v, length (ubytes v) = Z.to_nat (num_bytes v).
Proof. intros; unfold ubytes; apply le_bytes_length. Qed.

Lemma ubytes_val : forall v, 0 <= v < 2 ^ 64 -> le_val (ubytes v) = v.
Proof.
  intros. unfold ubytes. rewrite le_val_le_bytes.
  pose proof (num_bytes_range v). rewrite Z2Nat.id by lia.
  apply Z.mod_small. split; [lia|]. now apply num_bytes_fits.
Qed.

Lemma ubytes_bytes : forall v, Forall is_byte (ubytes v).
Proof. intros; apply le_bytes_is_byte. Qed.

Lemma pbytes_bytes : forall x, wf_pval x -> Forall is_byte (pbytes x).
Proof.
  intros [n v|v|v|v|bs]; cbn [wf_pval pbytes]; intros;
    try (destruct (_ || _)); auto using ubytes_bytes. tauto.
Qed.

Lemma pack_unsigned_spec : forall n m p v,
  uint_size n -> 0 <= v < 2 ^ (8 * Z.of_nat n) ->
  let r := pack_unsigned n m p v in
  load (pk_mem r) p (length (ubytes v)) = ubytes v /\
  pk_pos r = p + zlen (ubytes v) /\
  pk_code r = num_bytes v /\
  pk_touched r = p + Z.of_nat n /\
  num_bytes v <= Z.of_nat n /\
  (forall y, y < p \/ p + Z.of_nat n <= y -> pk_mem r y = m y).
Proof.
  intros n m p v Hn Hv r.
  assert (num_bytes v <= Z.of_nat n) as Hle.
  { apply num_bytes_le; [lia| |].
    - unfold uint_size in Hn; lia.
    - rewrite pow256_pow2 by lia. lia. }
  pose proof (num_bytes_range v).
  subst r; unfold pack_unsigned; cbn [pk_mem pk_pos pk_code pk_touched].
  rewrite ubytes_zlen, ubytes_length. repeat split; try lia.
  - rewrite load_store_prefix by (rewrite le_bytes_length; lia).
    rewrite le_bytes_firstn by lia. reflexivity.
  - intros. apply store_outside. rewrite le_bytes_zlen. lia.
Qed.

Lemma psize_pos : forall x, wf_pval x -> 1 <= psize x <= 16.
Proof.
  intros [n v|v|v|v|bs]; cbn [wf_pval psize]; unfold uint_size, zlen; intros; lia.
Qed.

Lemma pack_spec : forall m p x, wf_pval x ->
  let r := pack m p x in
  load (pk_mem r) p (length (pbytes x)) = pbytes x /\
  pk_pos r = p + zlen (pbytes x) /\
  pk_code r = pcode x /\
  pk_touched r = p + psize x /\
  1 <= zlen (pbytes x) <= psize x /\
  (forall y, y < p \/ p + psize x <= y -> pk_mem r y = m y).
Proof.
  intros m p x Hx r.
  destruct x as [n v|v|v|v|bs]; cbn [wf_pval] in Hx; subst r; cbn [pack pbytes pcode psize].
  - destruct Hx as [Hn Hv].
    destruct (pack_unsigned_spec n m p v Hn Hv) as (A & B & C & D & E & F).
    pose proof (num_bytes_range v). rewrite ubytes_zlen in *. repeat split; auto; lia.
  - unfold pack_s32. destruct ((0 <=? v) || (v <=? - 2 ^ 24)) eqn:Ec.
    + destruct (pack_unsigned_spec 4 m p (to_u 32 v)) as (A & B & C & D & E & F);
        [unfold uint_size; lia|apply to_u_range; lia|].
      unfold to_u in *. pose proof (num_bytes_range (v mod 2 ^ 32)).
      rewrite ubytes_zlen in *. repeat split; auto; lia.
    + assert (to_u 32 (- v) = - v) as Hu by (apply to_u_id; lia).
      destruct (pack_unsigned_spec 4 m p (to_u 32 (- v))) as (A & B & C & D & E & F);
        [unfold uint_size; lia|apply to_u_range; lia|].
      rewrite Hu in *. pose proof (num_bytes_range (- v)).
      unfold add_code; cbn [pk_mem pk_pos pk_code pk_touched].
      rewrite ubytes_zlen in *. repeat split; auto; lia.
  - unfold pack_s64. destruct ((0 <=? v) || (v <=? - 2 ^ 56)) eqn:Ec.
    + destruct (pack_unsigned_spec 8 m p (to_u 64 v)) as (A & B & C & D & E & F);
        [unfold uint_size; lia|apply to_u_range; lia|].
      unfold to_u in *. pose proof (num_bytes_range (v mod 2 ^ 64)).
      rewrite ubytes_zlen in *. repeat split; auto; lia.
    + assert (to_u 64 (- v) = - v) as Hu by (apply to_u_id; lia).
      destruct (pack_unsigned_spec 8 m p (to_u 64 (- v))) as (A & B & C & D & E & F);
        [unfold uint_size; lia|apply to_u_range; lia|].
      rewrite Hu in *. pose proof (num_bytes_range (- v)).
      unfold add_code; cbn [pk_mem pk_pos pk_code pk_touched].
      rewrite ubytes_zlen in *. repeat split; auto; lia.
  - unfold pack_ptr.
    destruct (pack_unsigned_spec 8 m p v) as (A & B & C & D & E & F);
      [unfold uint_size; lia|lia|].
    pose proof (num_bytes_range v). rewrite ubytes_zlen in *. repeat split; auto; lia.
  - destruct Hx as [Hl Hb]. unfold pack_float; cbn [pk_mem pk_pos pk_code pk_touched].
    repeat split; try (unfold zlen; lia).
    + apply load_store_same.
    + intros. apply store_outside. lia.
Qed.

(** The integer denoted by a packed value and the widest type it may be read
    back as without losing its sign (an unsigned value has no sign to lose). *)
Definition pint (x : pval) : option (Z * nat) :=
  match x with
  | PUns _ v => Some (v, 8%nat)
  | PS32 v => Some (v, 4%nat)
  | PS64 v => Some (v, 8%nat)
  | PPtr v => Some (v, 8%nat)
  | PFlt _ => None
  end.

Lemma cast_mod : forall t v k, it_bits t <= k -> 0 <= it_bits t ->
  cast t (v mod 2 ^ k) = cast t v.
Proof. intros. apply cast_cong. apply mod_mod_pow; lia. Qed.

Lemma cast_to_s64 : forall t v, (it_bytes t <= 8)%nat -> cast t (to_s 64 v) = cast t v.
Proof.
  intros. apply cast_cong.
  rewrite <- (mod_mod_pow (to_s 64 v) (it_bits t) 64) by (unfold it_bits; lia).
  rewrite to_s_mod by lia. apply mod_mod_pow. unfold it_bits; lia.
Qed.

Lemma unpack_ubytes : forall t m p v, (it_bytes t <= 8)%nat ->
  0 <= v < 2 ^ 64 ->
  load m p (length (ubytes v)) = ubytes v ->
  unpack_int t m p (num_bytes v) = (cast t v, p + zlen (ubytes v)).
Proof.
  intros. unfold unpack_int. pose proof (num_bytes_range v).
  destruct (num_bytes v <=? 8) eqn:E; [|lia].
  rewrite <- ubytes_length, H1, ubytes_val by lia.
  rewrite cast_to_s64 by auto. now rewrite ubytes_zlen.
Qed.

Lemma unpack_neg_ubytes : forall t m p v,
  0 < v < 2 ^ 56 ->
  load m p (length (ubytes v)) = ubytes v ->
  unpack_int t m p (8 + num_bytes v) = (cast t (- v), p + zlen (ubytes v)).
Proof.
  intros. unfold unpack_int. pose proof (num_bytes_range v).
  assert (num_bytes v <= 7) by (apply num_bytes_le; lia).
  destruct (8 + num_bytes v <=? 8) eqn:E; [lia|].
  destruct (8 + num_bytes v =? 0) eqn:E2; [lia|].
  replace ((8 + num_bytes v - 8) mod 16) with (num_bytes v) by (rewrite Z.mod_small; lia).
  rewrite <- ubytes_length, H0, ubytes_val by lia.
  rewrite (to_s_id 64) by lia. now rewrite ubytes_zlen.
Qed.

Lemma pcode_int_range : forall x, wf_pval x -> pint x <> None -> 1 <= pcode x <= 15.
Proof.
  intros [n v|v|v|v|bs] H Hi; cbn [wf_pval pcode pint] in *; try congruence.
  - pose proof (num_bytes_range v); lia.
  - destruct (_ || _) eqn:E; [pose proof (num_bytes_range (v mod 2 ^ 32)); lia|].
    assert (num_bytes (- v) <= 3) by (apply num_bytes_le; lia).
    pose proof (num_bytes_range (- v)); lia.
  - destruct (_ || _) eqn:E; [pose proof (num_bytes_range (v mod 2 ^ 64)); lia|].
    assert (num_bytes (- v) <= 7) by (apply num_bytes_le; lia).
    pose proof (num_bytes_range (- v)); lia.
  - pose proof (num_bytes_range v); lia.
Qed.

Lemma unpack_int_spec : forall t m p x v w, wf_pval x -> pint x = Some (v, w) ->
  (it_bytes t <= w)%nat ->
  load m p (length (pbytes x)) = pbytes x ->
  unpack_int t m p (pcode x) = (cast t v, p + zlen (pbytes x)).
Proof.
  intros t m p x v w Hx Hi Ht Hl.
  destruct x as [n u|u|u|u|bs]; cbn [wf_pval pint pbytes pcode] in *; inversion Hi; subst; clear Hi.
  - apply unpack_ubytes; auto. destruct Hx as [Hn Hv].
    unfold uint_size in Hn. destruct Hn as [->|[->|[->| ->]]]; cbn in Hv; lia.
  - destruct ((0 <=? v) || (v <=? - 2 ^ 24)) eqn:E.
    + rewrite unpack_ubytes; auto; try lia. f_equal.
      apply cast_mod; unfold it_bits; lia.
    + rewrite unpack_neg_ubytes; auto; try lia. f_equal. f_equal. lia.
  - destruct ((0 <=? v) || (v <=? - 2 ^ 56)) eqn:E.
    + rewrite unpack_ubytes; auto; try lia. f_equal.
      apply cast_mod; unfold it_bits; lia.
    + rewrite unpack_neg_ubytes; auto; try lia. f_equal. f_equal. lia.
  - apply unpack_ubytes; auto; lia.
Qed.

(** Size of a value from its nibble. *)
Lemma nib_size_pcode : forall x, wf_pval x -> nib_size (pcode x mod 16) = zlen (pbytes x).
Proof.
  intros x Hx. destruct x as [n v|v|v|v|bs]; cbn [wf_pval pbytes pcode] in *.
  - rewrite ubytes_zlen. pose proof (num_bytes_range v). rewrite Z.mod_small by lia.
    unfold nib_size. destruct (_ =? 0) eqn:?, (8 <? _) eqn:?; lia.
  - destruct (_ || _) eqn:E; rewrite ubytes_zlen.
    + pose proof (num_bytes_range (v mod 2 ^ 32)). rewrite Z.mod_small by lia.
      unfold nib_size. destruct (_ =? 0) eqn:?, (8 <? _) eqn:?; lia.
    + assert (num_bytes (- v) <= 3) by (apply num_bytes_le; lia).
      pose proof (num_bytes_range (- v)). rewrite Z.mod_small by lia.
      unfold nib_size. destruct (_ =? 0) eqn:?, (8 <? _) eqn:?; lia.
  - destruct (_ || _) eqn:E; rewrite ubytes_zlen.
    + pose proof (num_bytes_range (v mod 2 ^ 64)). rewrite Z.mod_small by lia.
      unfold nib_size. destruct (_ =? 0) eqn:?, (8 <? _) eqn:?; lia.
    + assert (num_bytes (- v) <= 7) by (apply num_bytes_le; lia).
      pose proof (num_bytes_range (- v)). rewrite Z.mod_small by lia.
      unfold nib_size. destruct (_ =? 0) eqn:?, (8 <? _) eqn:?; lia.
  - rewrite ubytes_zlen. pose proof (num_bytes_range v). rewrite Z.mod_small by lia.
    unfold nib_size. destruct (_ =? 0) eqn:?, (8 <? _) eqn:?; lia.
  - unfold nib_size, zlen in *. destruct Hx as [[->|[->| ->]] _]; reflexivity.
Qed.

Lemma nib_first_set : forall b v, nib_first (set_first b v) = v mod 16.
Proof. intros; unfold nib_first, set_first. lia. Qed.
Lemma nib_second_set : forall b v, nib_second (set_second b v) = v mod 16.
Proof. intros; unfold nib_second, set_second. lia. Qed.
Lemma nib_first_set_second : forall b v, nib_first (set_second b v) = nib_first b.
Proof. intros; unfold nib_first, set_second. lia. Qed.
Lemma nib_second_set_first : forall b v, nib_second (set_first b v) = nib_second b.
Proof. intros; unfold nib_second, set_first. lia. Qed.

(** * Nibble arrays *)

Lemma land15 : forall c, Z.land 15 c = c mod 16.
Proof. intros. rewrite Z.land_comm. apply (Z.land_ones c 4). lia. Qed.

(** The nibbles from position [pos] on, starting in its low or high half. *)
Fixpoint nibbles_from (m : mem) (pos : Z) (first : bool) (codes : list Z) : Prop :=
  match codes with
  | [] => True
  | c :: cs =>
      (if first then nib_first (m pos) else nib_second (m pos)) = c /\
      nibbles_from m (if first then pos else pos + 1) (negb first) cs
  end.

Fixpoint sum (l : list Z) : Z := match l with [] => 0 | x :: t => x + sum t end.

Lemma sum_app : forall a b, sum (a ++ b) = sum a + sum b.
Proof. induction a; intros; cbn [sum app]; rewrite ?IHa; lia. Qed.

Lemma nib_size_range : forall n, 0 <= n < 16 -> 1 <= nib_size n <= 16.
Proof. intros; unfold nib_size. destruct (_ =? 0) eqn:?, (8 <? _) eqn:?; lia. Qed.

Lemma nib_first_range : forall b, 0 <= nib_first b < 16.
Proof. intros; unfold nib_first; lia. Qed.
Lemma nib_second_range : forall b, 0 <= nib_second b < 16.
Proof. intros; unfold nib_second; lia. Qed.

Lemma list_pair_ind : forall (A : Type) (P : list A -> Prop),
  P [] -> (forall x, P [x]) -> (forall x y l, P l -> P (x :: y :: l)) -> forall l, P l.
Proof.
  intros A P H0 H1 H2.
  assert (forall l, P l /\ forall x, P (x :: l)) as K.
  { induction l as [|x l [IH1 IH2]]; split; auto. }
  intro l; apply (proj1 (K l)).
Qed.

Lemma getSize_step : forall codes m a acc,
  nibbles_from m a true codes ->
  0 <= acc -> acc + 16 * zlen codes < 2 ^ 32 ->
  let n := zlen codes in
  let size := packed_pairs_size m a (Z.to_nat (n / 2)) acc in
  (if Z.odd n then to_u 32 (size + nib_size (nib_first (m (a + n / 2)))) else size)
  = acc + sum (map nib_size codes).
Proof.
  induction codes as [|x|x y l IH] using list_pair_ind; intros m a acc H Ha Hb n size; subst n size.
  - cbn. lia.
  - unfold zlen; cbn [length map sum]. change (Z.of_nat 1) with 1.
    change (1 / 2) with 0. cbn [Z.odd Z.to_nat packed_pairs_size].
    cbn [nibbles_from] in H. destruct H as [<- _].
    rewrite Z.add_0_r. pose proof (nib_size_range (nib_first (m a)) (nib_first_range _)).
    unfold zlen in Hb; cbn [length] in Hb.
    unfold to_u; rewrite Z.mod_small by lia. lia.
  - cbn [nibbles_from negb] in H. destruct H as (H1 & H2 & H3).
    rewrite !zlen_cons in *. pose proof (zlen_nonneg _ l).
    replace (1 + (1 + zlen l)) with (zlen l + 1 * 2) by lia.
    rewrite Z.div_add by lia.
    replace (Z.to_nat (zlen l / 2 + 1)) with (S (Z.to_nat (zlen l / 2))) by lia.
    cbn [packed_pairs_size map sum].
    pose proof (nib_size_range (nib_first (m a)) (nib_first_range _)).
    pose proof (nib_size_range (nib_second (m a)) (nib_second_range _)).
    assert (to_u 32 (acc + nib_size (nib_first (m a)) + nib_size (nib_second (m a)))
            = acc + nib_size (nib_first (m a)) + nib_size (nib_second (m a))) as ->
      by (apply to_u_id; lia).
    specialize (IH m (a + 1) (acc + nib_size (nib_first (m a)) + nib_size (nib_second (m a)))).
    cbv zeta in IH.
    replace (zlen l + 1 * 2) with (zlen l + 2 * 1) by lia. rewrite Z.odd_add_mul_2.
    replace (a + (zlen l / 2 + 1)) with (a + 1 + zlen l / 2) by lia.
    rewrite IH by (auto; lia). subst x y. lia.
Qed.

Lemma getSizeOfPackedValues_spec : forall codes m a,
  nibbles_from m a true codes -> 16 * zlen codes < 2 ^ 32 ->
  getSizeOfPackedValues m a (zlen codes) = sum (map nib_size codes).
Proof.
  intros. unfold getSizeOfPackedValues.
  apply (getSize_step codes m a 0); auto; lia.
Qed.

(** Codes and bytes of a sequence of values. *)
Definition pcodes (xs : list pval) : list Z := map (fun x => pcode x mod 16) xs.
Definition pvalues (xs : list pval) : list Z := concat (map pbytes xs).

Lemma sum_pcodes : forall xs, Forall wf_pval xs ->
  sum (map nib_size (pcodes xs)) = zlen (pvalues xs).
Proof.
  induction xs; intros; [reflexivity|]. inversion H; subst.
  unfold pcodes, pvalues in *; cbn [map sum concat].
  rewrite zlen_app, nib_size_pcode, IHxs by auto. reflexivity.
Qed.

(** A nibbler positioned in front of the remaining values [xs]. *)
Definition nibbler_at (m : mem) (nb : nibbler) (xs : list pval) : Prop :=
  nibbles_from m (nb_pos nb) (nb_first nb) (pcodes xs) /\
  load m (nb_cur nb) (length (pvalues xs)) = pvalues xs /\
  nb_end nb = nb_cur nb + zlen (pvalues xs).

(** A block of nibbles and values in memory at [a]. *)
Definition block_at (m : mem) (a : Z) (xs : list pval) : Prop :=
  nibbles_from m a true (pcodes xs) /\
  load m (a + (zlen xs + 1) / 2) (length (pvalues xs)) = pvalues xs.

Lemma pcodes_zlen : forall xs, zlen (pcodes xs) = zlen xs.
Proof. intros; unfold pcodes; apply zlen_map. Qed.

Lemma nibbler_init_at : forall m a xs, Forall wf_pval xs -> 16 * zlen xs < 2 ^ 32 ->
  block_at m a xs -> nibbler_at m (nibbler_init m a (zlen xs)) xs.
Proof.
  intros m a xs Hx Hs [Hn Hv]. unfold nibbler_at, nibbler_init; cbn.
  repeat split; auto.
  rewrite <- (pcodes_zlen xs) at 2.
  rewrite getSizeOfPackedValues_spec by (rewrite ?pcodes_zlen; auto).
  now rewrite sum_pcodes.
Qed.

Lemma nibbler_step : forall m nb x xs, wf_pval x ->
  nibbler_at m nb (x :: xs) ->
  nibbler_ready nb = true /\
  nibbler_code m nb = pcode x mod 16 /\
  load m (nb_cur nb) (length (pbytes x)) = pbytes x /\
  nibbler_at m (nibbler_advance nb (nb_cur nb + zlen (pbytes x))) xs.
Proof.
  intros m nb x xs Hx (Hn & Hv & He).
  destruct (pack_spec (fun _ => 0) 0 x Hx) as (_ & _ & _ & _ & L & _).
  unfold pvalues in *; cbn [map concat] in *.
  rewrite zlen_app in He. pose proof (zlen_nonneg _ (concat (map pbytes xs))).
  apply load_split in Hv. destruct Hv as [V1 V2].
  cbn [pcodes map nibbles_from] in Hn. destruct Hn as [N1 N2].
  repeat split.
  - unfold nibbler_ready. lia.
  - unfold nibbler_code. auto.
  - auto.
  - unfold nibbler_advance; cbn. destruct (nb_first nb); cbn; auto.
  - unfold nibbler_advance; cbn. auto.
  - unfold nibbler_advance, pvalues; cbn. lia.
Qed.

Lemma getNext_int_at : forall t m nb x xs v w, wf_pval x ->
  pint x = Some (v, w) -> (it_bytes t <= w)%nat ->
  nibbler_at m nb (x :: xs) ->
  exists nb', getNext_int t m nb = Some (cast t v, nb') /\ nibbler_at m nb' xs /\ nb_end nb' = nb_end nb.
Proof.
  intros t m nb x xs v w Hx Hp Ht H.
  destruct (nibbler_step m nb x xs Hx H) as (R & C & L & N).
  unfold getNext_int. rewrite R, C.
  assert (1 <= pcode x <= 15) by (apply pcode_int_range; congruence).
  rewrite Z.mod_small by lia.
  rewrite (unpack_int_spec t m (nb_cur nb) x v w) by auto.
  eexists; split; [reflexivity|split; [exact N|reflexivity]].
Qed.

(** What a floating point conversion of the given object size sees. *)
Definition pflt (size : Z) (bs : list Z) : option flt :=
  if zlen bs =? 4 then Some (F32w bs)
  else if zlen bs =? size then Some (if size =? 8 then F64 bs else F80 bs)
  else None.

Lemma getNext_float_at : forall size m nb bs xs f,
  (size = 8 \/ size = 16) -> wf_pval (PFlt bs) -> pflt size bs = Some f ->
  nibbler_at m nb (PFlt bs :: xs) ->
  exists nb', getNext_float size m nb = Some (f, nb') /\ nibbler_at m nb' xs /\ nb_end nb' = nb_end nb.
Proof.
  intros size m nb bs xs f Hs Hx Hf H.
  destruct (nibbler_step m nb (PFlt bs) xs Hx H) as (R & C & L & N).
  unfold getNext_float. rewrite R, C. cbn [pcode pbytes] in *.
  unfold unpack_float, pflt in *.
  destruct Hx as [Hl _]. unfold zlen in *.
  destruct Hl as [Hl|[Hl|Hl]]; rewrite Hl in *.
  - change (Z.of_nat 4) with 4 in *. change (4 =? 4) with true in Hf.
    change (4 mod 16) with 4. change (4 =? 4) with true.
    cbv iota zeta in *. injection Hf as <-. rewrite L. eexists; split; [reflexivity|split; [exact N|reflexivity]].
  - change (Z.of_nat 8) with 8 in *. change (8 =? 4) with false in Hf.
    change (8 mod 16) with 8. change (8 =? 4) with false. change (8 =? 0) with false.
    cbv iota zeta in *. destruct (8 =? size) eqn:E; [|discriminate].
    assert (size = 8) by lia; subst size. injection Hf as <-.
    change (Z.to_nat 8) with 8%nat. rewrite L. eexists; split; [reflexivity|split; [exact N|reflexivity]].
  - change (Z.of_nat 16) with 16 in *. change (16 =? 4) with false in Hf.
    change (16 mod 16) with 0. change (0 =? 4) with false. change (0 =? 0) with true.
    cbv iota zeta in *. destruct (16 =? size) eqn:E; [|discriminate].
    assert (size = 16) by lia; subst size. injection Hf as <-.
    change (Z.to_nat 16) with 16%nat. rewrite L. eexists; split; [reflexivity|split; [exact N|reflexivity]].
Qed.

(** The [k]-th nibble of the array at [a]. *)
Definition nib (m : mem) (a k : Z) : Z :=
  if Z.odd k then nib_second (m (a + k / 2)) else nib_first (m (a + k / 2)).

Lemma nibbles_from_nib : forall codes m a k, 0 <= k ->
  (forall i, (i < length codes)%nat -> nib m a (k + Z.of_nat i) = nth i codes 0) ->
  nibbles_from m (a + k / 2) (negb (Z.odd k)) codes.
Proof.
  induction codes; intros m b k Hk H; cbn [nibbles_from]; auto.
  split.
  - specialize (H O ltac:(cbn; lia)). cbn [nth] in H. rewrite Z.add_0_r in H.
    unfold nib in H. destruct (Z.odd k); cbn [negb]; auto.
  - replace (if negb (Z.odd k) then b + k / 2 else b + k / 2 + 1) with (b + (k + 1) / 2)
      by (pose proof (Zodd_mod k); destruct (Z.odd k); cbn [negb];
          unfold Zeq_bool in *; destruct (k mod 2 ?= 1) eqn:E;
          try discriminate; try apply Z.compare_eq in E;
          try (assert (k mod 2 <> 1) by (intro Q; rewrite Q in E; discriminate)); lia).
    replace (negb (negb (Z.odd k))) with (negb (Z.odd (k + 1)))
      by (rewrite Z.odd_add; destruct (Z.odd k); reflexivity).
    apply IHcodes; [lia|]. intros i Hi.
    specialize (H (S i) ltac:(cbn; lia)). cbn [nth] in H. rewrite <- H. f_equal. lia.
Qed.

Lemma write_nibble_same : forall m a k c, 0 <= k -> nib (write_nibble m a k c) a k = c mod 16.
Proof.
  intros. unfold nib, write_nibble.
  rewrite store_inside by (rewrite zlen_cons, zlen_nil; lia).
  rewrite Z.sub_diag. cbn [Z.to_nat nth]. rewrite land15.
  destruct (Z.odd k); rewrite ?nib_second_set, ?nib_first_set; apply Z.mod_mod; lia.
Qed.

Lemma odd_half : forall k, k = 2 * (k / 2) + (if Z.odd k then 1 else 0).
Proof.
  intros. pose proof (Zdiv2_odd_eqn k). rewrite Z.div2_div in H. destruct (Z.odd k); lia.
Qed.

Lemma write_nibble_other : forall m a k c j, j <> k ->
  nib (write_nibble m a k c) a j = nib m a j.
Proof.
  intros. unfold nib, write_nibble.
  destruct (Z.eq_dec (j / 2) (k / 2)).
  - rewrite e. rewrite store_inside by (rewrite zlen_cons, zlen_nil; lia).
    rewrite Z.sub_diag. cbn [Z.to_nat nth].
    pose proof (odd_half j). pose proof (odd_half k).
    destruct (Z.odd j) eqn:Ej, (Z.odd k) eqn:Ek; try lia.
    + apply nib_second_set_first.
    + apply nib_first_set_second.
  - rewrite store_outside by (rewrite zlen_cons, zlen_nil; lia). reflexivity.
Qed.

Lemma write_nibble_outside : forall m a k c y, y <> a + k / 2 -> write_nibble m a k c y = m y.
Proof. intros. unfold write_nibble. apply store_outside. rewrite zlen_cons, zlen_nil. lia. Qed.

Lemma nib_ext : forall m m' a k, m (a + k / 2) = m' (a + k / 2) -> nib m a k = nib m' a k.
Proof. intros. unfold nib. now rewrite H. Qed.

Lemma pslack : forall x, wf_pval x -> psize x <= zlen (pbytes x) + 7.
Proof.
  intros x Hx. destruct (pack_spec (fun _ => 0) 0 x Hx) as (_ & _ & _ & _ & L & _).
  destruct x; cbn [psize pbytes] in *; try lia.
  destruct Hx as [Hn _]. unfold uint_size in Hn. lia.
Qed.

Lemma pack_seq_spec : forall xs m nb k out hi m' out' hi',
  Forall wf_pval xs -> 0 <= k -> nb + (k + zlen xs + 1) / 2 <= out ->
  pack_seq m nb k out hi xs = (m', out', hi') ->
  out' = out + zlen (pvalues xs) /\
  load m' out (length (pvalues xs)) = pvalues xs /\
  (forall i, (i < length xs)%nat -> nib m' nb (k + Z.of_nat i) = nth i (pcodes xs) 0) /\
  (forall j, 0 <= j < k -> nib m' nb j = nib m nb j) /\
  hi <= hi' <= Z.max hi (out' + 7) /\
  (forall y, y < nb + k / 2 \/ (nb + (k + zlen xs + 1) / 2 <= y < out) \/ (hi' <= y /\ out' <= y) -> m' y = m y).
Proof.
  induction xs as [|x xs IH]; intros m nb k out hi m' out' hi' Hx Hk Hb E.
  - cbn [pack_seq] in E. inversion E; subst. unfold pvalues; cbn [map concat length].
    rewrite zlen_nil. repeat split; auto; try lia; intros; lia.
  - inversion Hx; subst. rewrite zlen_cons in *. pose proof (zlen_nonneg _ xs).
    cbn [pack_seq] in E.
    destruct (pack_spec m out x H1) as (A & B & C & D & L & F).
    set (r := pack m out x) in *.
    pose proof (pslack x H1).
    apply IH in E; auto; try lia.
    destruct E as (E1 & E2 & E3 & E4 & E5 & E6).
    unfold pvalues in *; cbn [map concat].
    rewrite zlen_app. pose proof (zlen_nonneg _ (concat (map pbytes xs))).
    assert (forall y, out <= y < pk_pos r -> m' y = pk_mem r y) as K.
    { intros. rewrite E6 by lia.
      apply write_nibble_outside. lia. }
    repeat split.
    + lia.
    + rewrite app_length, load_app. f_equal.
      * rewrite <- A at 2. apply load_ext. intros. apply K. unfold zlen in *; lia.
      * fold (zlen (pbytes x)). rewrite <- E2 at 2. f_equal. lia.
    + intros i Hi. destruct i.
      * rewrite Z.add_0_r. cbn [pcodes map nth].
        rewrite E4 by lia. rewrite write_nibble_same by lia. now rewrite C.
      * specialize (E3 i ltac:(cbn in Hi; lia)). cbn [pcodes map nth].
        fold (pcodes xs). rewrite <- E3. f_equal. lia.
    + intros j Hj. rewrite E4 by lia. rewrite write_nibble_other by lia.
      apply nib_ext. apply F. lia.
    + lia.
    + lia.
    + intros y Hy. rewrite E6 by lia. rewrite write_nibble_outside by lia.
      apply F. lia.
Qed.

Lemma pack_seq_block : forall xs m nb hi m' out' hi',
  Forall wf_pval xs ->
  pack_seq m nb 0 (nb + (zlen xs + 1) / 2) hi xs = (m', out', hi') ->
  block_at m' nb xs /\ out' = nb + (zlen xs + 1) / 2 + zlen (pvalues xs).
Proof.
  intros xs m nb hi m' out' hi' Hx E.
  apply pack_seq_spec in E; auto; try lia.
  - destruct E as (E1 & E2 & E3 & _). split; [split|]; auto.
    replace nb with (nb + 0 / 2) by lia. change true with (negb (Z.odd 0)).
    apply nibbles_from_nib; [lia|]. intros i Hi. apply E3.
    unfold pcodes in Hi. rewrite map_length in Hi. lia.
Qed.

Lemma moved_nibbles : forall cs m o m' o' n a b, moved m o m' o' n -> 0 <= a ->
  2 * a + (if b : bool then 0 else 1) + zlen cs <= 2 * n ->
  nibbles_from m (o + a) b cs -> nibbles_from m' (o' + a) b cs.
Proof.
  induction cs as [|c cs IH]; intros m o m' o' n a b H Ha Hn N; [exact I|].
  rewrite zlen_cons in Hn. pose proof (zlen_nonneg _ cs).
  destruct b; cbn [nibbles_from] in *; destruct N as [N1 N2].
  - rewrite (H a) by lia. split; [exact N1|]. apply (IH m o m' o' n a false); auto. lia.
  - rewrite (H a) by lia. split; [exact N1|]. rewrite <- Z.add_assoc in *.
    apply (IH m o m' o' n (a + 1) true); auto; lia.
Qed.

Lemma block_moved : forall xs m o m' o' N, moved m o m' o' N ->
  (zlen xs + 1) / 2 + zlen (pvalues xs) <= N -> block_at m o xs -> block_at m' o' xs.
Proof.
  intros xs m o m' o' N Hm HN [B1 B2].
  pose proof (zlen_nonneg _ xs). pose proof (zlen_nonneg _ (pvalues xs)). split.
  - rewrite <- (Z.add_0_r o'). apply (moved_nibbles _ m o m' o' N); auto; try lia.
    + rewrite pcodes_zlen. lia.
    + now rewrite Z.add_0_r.
  - rewrite (moved_load m o m' o' N); auto; unfold zlen in *; lia.
Qed.
