(** C01-C04: packing of single values and of argument blocks. *)
From Verif Require Import Base BaseProofs Packer PackerProofs.

(** Specification vocabulary: the integer types of C++ on x86-64, and two
    memories that agree on a range. *)
Definition int_type (t : ity) : Prop :=
  it_bytes t = 1%nat \/ it_bytes t = 2%nat \/ it_bytes t = 4%nat \/ it_bytes t = 8%nat.

Definition agree (m m' : mem) (lo hi : Z) : Prop := forall x, lo <= x < hi -> m x = m' x.

Lemma pval_of_int_wf : forall t v, int_type t -> in_range t v -> wf_pval (pval_of_int t v).
Proof.
  intros [s n] v Ht Hr. unfold pval_of_int, int_type, in_range, it_bits in *.
  cbn [it_signed it_bytes] in *.
  destruct s, Ht as [->|[->|[->| ->]]]; cbn [Nat.eqb wf_pval]; unfold uint_size;
    cbn in Hr |- *; lia.
Qed.

Lemma agree_load : forall m m' lo hi n, agree m m' lo hi -> lo + Z.of_nat n <= hi ->
  load m' lo n = load m lo n.
Proof. intros. apply load_ext. intros. symmetry. apply H. lia. Qed.

(** C01.  Packing and unpacking any integer, through any memory that keeps the
    emitted bytes, gives the integer back (converted to the type asked for, when
    that type is no wider than the packed one) and the same end position. *)
Theorem C01_int_roundtrip : forall t t' v m m' p,
  int_type t -> int_type t' -> in_range t v ->
  (it_bytes t' <= it_bytes t)%nat ->
  let r := pack m p (pval_of_int t v) in
  agree (pk_mem r) m' p (pk_pos r) ->
  unpack_int t' m' p (pk_code r) = (cast t' v, pk_pos r).
Proof.
  intros t t' v m m' p Ht Ht' Hv Hw r Ha.
  pose proof (pval_of_int_wf t v Ht Hv) as Hx.
  destruct (pack_spec m p _ Hx) as (A & B & C & D & L & F).
  fold r in A, B, C, D, F. rewrite C, B.
  apply (unpack_int_spec t' m' p (pval_of_int t v) v
           (if it_signed t then if Nat.eqb (it_bytes t) 8 then 8 else 4 else 8)%nat); auto.
  - unfold pval_of_int. destruct (it_signed t), (Nat.eqb (it_bytes t) 8); reflexivity.
  - unfold int_type in *. destruct (it_signed t), (Nat.eqb (it_bytes t) 8) eqn:E; try lia.
    apply Nat.eqb_neq in E. lia.
  - rewrite (agree_load _ _ _ _ _ Ha); auto. unfold zlen in B. lia.
Qed.

Theorem C01_same_type : forall t v m m' p,
  int_type t -> in_range t v ->
  let r := pack m p (pval_of_int t v) in
  agree (pk_mem r) m' p (pk_pos r) ->
  unpack_int t m' p (pk_code r) = (v, pk_pos r).
Proof.
  intros. subst r. rewrite (C01_int_roundtrip t t v m m' p); auto.
  rewrite cast_id; auto. unfold int_type in H; lia.
Qed.

Print Assumptions C01_int_roundtrip.
Print Assumptions C01_same_type.

Example C01_instance :
  let t := Ity true 8 in let v := - 2 ^ 56 + 1 in
  in_range t v /\
  let r := pack (fun _ => 77) 5 (pval_of_int t v) in
  pk_pos r = 12 /\ pk_code r = 15 /\ unpack_int t (pk_mem r) 5 15 = (v, 12).
Proof. vm_compute. intuition congruence. Qed.

(** C02.  Width of the packed form. *)
Definition least_width (v n : Z) : Prop :=
  1 <= n /\ v < 256 ^ n /\ forall k, 1 <= k -> v < 256 ^ k -> n <= k.

(** The magnitude whose width is used: the value itself when it is not
    negative, its absolute value when that is below the threshold of the type,
    and the full two's complement pattern otherwise. *)
Definition magnitude (t : ity) (v : Z) : Z :=
  if 0 <=? v then v
  else if Nat.eqb (it_bytes t) 8
       then if - 2 ^ 56 <? v then - v else v + 2 ^ 64
       else if - 2 ^ 24 <? v then - v else v + 2 ^ 32.

Lemma num_bytes_least : forall v, 0 <= v < 2 ^ 64 -> least_width v (num_bytes v).
Proof.
  intros. pose proof (num_bytes_range v). repeat split; try lia.
  - now apply num_bytes_fits.
  - intros. now apply num_bytes_minimal.
Qed.

Theorem C02_minimal_width : forall t v m p,
  int_type t -> in_range t v ->
  let r := pack m p (pval_of_int t v) in
  let n := pk_pos r - p in
  least_width (magnitude t v) n /\
  n <= Z.max 4 (Z.of_nat (it_bytes t)) /\
  1 <= pk_code r <= 15 /\
  n = (if pk_code r <=? 8 then pk_code r else pk_code r - 8) /\
  (pk_code r > 8 <-> (if Nat.eqb (it_bytes t) 8 then - 2 ^ 56 else - 2 ^ 24) < v < 0).
Proof.
  intros t v m p Ht Hv r n.
  pose proof (pval_of_int_wf t v Ht Hv) as Hx.
  destruct (pack_spec m p _ Hx) as (A & B & C & D & L & F). fold r in A, B, C, D, F.
  subst n. rewrite B, C. replace (p + zlen (pbytes (pval_of_int t v)) - p)
    with (zlen (pbytes (pval_of_int t v))) by lia. clear A B C D F r.
  assert (exists u, pval_of_int t v = PUns (it_bytes t) u /\ u = v /\ it_signed t = false
          \/ pval_of_int t v = PS32 v /\ u = v /\ it_signed t = true /\ (it_bytes t <= 4)%nat
          \/ pval_of_int t v = PS64 v /\ u = v /\ it_signed t = true /\ it_bytes t = 8%nat) as [u Hc].
  { exists v. unfold pval_of_int, int_type in *. destruct (it_signed t); [|auto].
    destruct (Nat.eqb (it_bytes t) 8) eqn:E; [apply Nat.eqb_eq in E|apply Nat.eqb_neq in E];
      right; [right|left]; repeat split; auto; lia. }
  unfold magnitude, in_range, it_bits in *.
  destruct Hc as [(Hq & -> & Hs)|[(Hq & -> & Hs & Hw)|(Hq & -> & Hs & Hw)]];
    rewrite Hq in *; cbn [pbytes pcode psize wf_pval] in *; rewrite Hs in Hv.
  - assert (0 <= v < 2 ^ 64) by (destruct Ht as [H|[H|[H|H]]]; rewrite H in Hv; cbn in Hv; lia).
    replace (0 <=? v) with true by lia.
    rewrite ubytes_zlen. pose proof (num_bytes_range v).
    replace (num_bytes v <=? 8) with true by lia. rewrite ubytes_zlen in L.
    split; [now apply num_bytes_least|]. repeat split; try lia.
  - assert (- 2 ^ 31 <= v < 2 ^ 31) by (destruct Ht as [H|[H|[H|H]]]; rewrite H in Hv; cbn in Hv; lia).
    replace (Nat.eqb (it_bytes t) 8) with false
      by (symmetry; apply Nat.eqb_neq; lia).
    destruct (0 <=? v) eqn:E0; rewrite ?E0 in *; cbn [orb] in *.
    + rewrite (Z.mod_small v) in * by lia. rewrite ubytes_zlen. pose proof (num_bytes_range v).
      replace (num_bytes v <=? 8) with true by lia. rewrite ubytes_zlen in L.
      split; [apply num_bytes_least; lia|]. repeat split; try lia.
    + destruct (v <=? - 2 ^ 24) eqn:E1; rewrite ?E1 in *; cbn [orb] in *.
      * replace (- 2 ^ 24 <? v) with false by lia.
        assert (v mod 2 ^ 32 = v + 2 ^ 32) as Hm by lia. rewrite Hm in *.
        rewrite ubytes_zlen. pose proof (num_bytes_range (v + 2 ^ 32)).
        replace (num_bytes (v + 2 ^ 32) <=? 8) with true by lia.
        rewrite ubytes_zlen in L.
        split; [apply num_bytes_least; lia|]. repeat split; try lia.
      * replace (- 2 ^ 24 <? v) with true by lia.
        rewrite ubytes_zlen. pose proof (num_bytes_range (- v)).
        assert (num_bytes (- v) <= 3) by (apply num_bytes_le; lia).
        replace (8 + num_bytes (- v) <=? 8) with false by lia.
        split; [apply num_bytes_least; lia|]. repeat split; try lia.
  - rewrite Hw in Hv. cbn in Hv.
    replace (Nat.eqb (it_bytes t) 8) with true by (symmetry; apply Nat.eqb_eq; lia).
    destruct (0 <=? v) eqn:E0; rewrite ?E0 in *; cbn [orb] in *.
    + rewrite (Z.mod_small v) in * by lia. rewrite ubytes_zlen. pose proof (num_bytes_range v).
      replace (num_bytes v <=? 8) with true by lia. rewrite ubytes_zlen in L.
      split; [apply num_bytes_least; lia|]. repeat split; try lia.
    + destruct (v <=? - 2 ^ 56) eqn:E1; rewrite ?E1 in *; cbn [orb] in *.
      * replace (- 2 ^ 56 <? v) with false by lia.
        assert (v mod 2 ^ 64 = v + 2 ^ 64) as Hm by lia. rewrite Hm in *.
        rewrite ubytes_zlen. pose proof (num_bytes_range (v + 2 ^ 64)).
        replace (num_bytes (v + 2 ^ 64) <=? 8) with true by lia.
        rewrite ubytes_zlen in L.
        split; [apply num_bytes_least; lia|]. repeat split; try lia.
      * replace (- 2 ^ 56 <? v) with true by lia.
        rewrite ubytes_zlen. pose proof (num_bytes_range (- v)).
        assert (num_bytes (- v) <= 7) by (apply num_bytes_le; lia).
        replace (8 + num_bytes (- v) <=? 8) with false by lia.
        split; [apply num_bytes_least; lia|]. repeat split; try lia.
Qed.
Print Assumptions C02_minimal_width.

Example C02_instance :
  pk_pos (pack (fun _ => 0) 0 (pval_of_int (Ity true 4) (- 300))) = 2 /\
  pk_code (pack (fun _ => 0) 0 (pval_of_int (Ity true 4) (- 300))) = 10 /\
  pk_pos (pack (fun _ => 0) 0 (pval_of_int (Ity false 8) 65536)) = 3.
Proof. vm_compute. auto. Qed.

(** C03.  Floating point objects and pointers. *)
Theorem C03_float_roundtrip : forall bs m m' p,
  Forall is_byte bs ->
  let r := pack m p (PFlt bs) in
  agree (pk_mem r) m' p (pk_pos r) ->
  let nibble := pk_code r mod 16 in
  (length bs = 4%nat -> forall size, unpack_float size m' p nibble = Some (F32w bs, pk_pos r)) /\
  (length bs = 8%nat -> unpack_float 8 m' p nibble = Some (F64 bs, pk_pos r)) /\
  (length bs = 16%nat -> unpack_float 16 m' p nibble = Some (F80 bs, pk_pos r)).
Proof.
  intros bs m m' p Hb r Ha nibble. subst nibble.
  assert (load m' p (length bs) = bs) as Hl.
  { rewrite (agree_load _ _ _ _ _ Ha); [apply load_store_same|].
    subst r; cbn; unfold zlen; lia. }
  subst r; cbn [pack pack_float pk_mem pk_code pk_pos].
  unfold zlen. repeat split; intros H; rewrite H in *; intros; unfold unpack_float.
  - change (Z.of_nat 4 mod 16 =? 4) with true. cbv iota. now rewrite Hl.
  - change (Z.of_nat 8 mod 16) with 8. change (8 =? 4) with false. change (8 =? 0) with false.
    change (8 =? 8) with true. cbv iota zeta. change (Z.to_nat 8) with 8%nat. now rewrite Hl.
  - change (Z.of_nat 16 mod 16) with 0. change (0 =? 4) with false. change (0 =? 0) with true.
    change (16 =? 16) with true. change (16 =? 8) with false.
    cbv iota zeta. change (Z.to_nat 16) with 16%nat. now rewrite Hl.
Qed.

Theorem C03_pointer_roundtrip : forall v m m' p,
  0 <= v < 2 ^ 64 ->
  let r := pack m p (PPtr v) in
  agree (pk_mem r) m' p (pk_pos r) ->
  unpack_ptr m' p (pk_code r) = (v, pk_pos r).
Proof.
  intros v m m' p Hv r Ha.
  destruct (pack_spec m p (PPtr v) Hv) as (A & B & C & D & L & F). fold r in A, B, C.
  unfold unpack_ptr. rewrite C, B.
  rewrite (unpack_int_spec (Ity false 8) m' p (PPtr v) v 8); auto.
  - rewrite cast_id; auto; cbn; lia.
  - rewrite (agree_load _ _ _ _ _ Ha); auto. unfold zlen in B. lia.
Qed.
Print Assumptions C03_float_roundtrip.
Print Assumptions C03_pointer_roundtrip.

Example C03_instance :
  let bs := [1;2;3;4;5;6;7;8;9;10;11;12;13;14;15;16] in
  let r := pack (fun _ => 99) 3 (PFlt bs) in
  pk_code r mod 16 = 0 /\ unpack_float 16 (pk_mem r) 3 0 = Some (F80 bs, 19).
Proof. vm_compute. auto. Qed.

(** C04.  A reader asks for each value with a type; [expected] is the value it
    must get, independent of the encoding. *)
Inductive request := RInt (t : ity) | RPtr | RFloat (size : Z).
Inductive value := VI (v : Z) | VF (f : flt).

Definition expected (x : pval) (q : request) : option value :=
  match x, q with
  | PUns _ v, RInt t => if Nat.leb (it_bytes t) 8 then Some (VI (cast t v)) else None
  | PS32 v, RInt t => if Nat.leb (it_bytes t) 4 then Some (VI (cast t v)) else None
  | PS64 v, RInt t => if Nat.leb (it_bytes t) 8 then Some (VI (cast t v)) else None
  | PPtr v, RPtr => Some (VI v)
  | PFlt bs, RFloat size =>
      if (size =? 8) || (size =? 16) then
        if Nat.eqb (length bs) 4 then Some (VF (F32w bs))
        else if zlen bs =? size then Some (VF (if size =? 8 then F64 bs else F80 bs))
        else None
      else None
  | _, _ => None
  end.

Fixpoint expected_all (xs : list pval) (qs : list request) : option (list value) :=
  match xs, qs with
  | [], [] => Some []
  | x :: xs', q :: qs' =>
      match expected x q, expected_all xs' qs' with
      | Some v, Some vs => Some (v :: vs)
      | _, _ => None
      end
  | _, _ => None
  end.

(** Reading with the model's Nibbler. *)
Definition read_one (m : mem) (nb : nibbler) (q : request) : option (value * nibbler) :=
  match q with
  | RInt t => match getNext_int t m nb with Some (v, nb') => Some (VI v, nb') | None => None end
  | RPtr => match getNext_ptr m nb with Some (v, nb') => Some (VI v, nb') | None => None end
  | RFloat s => match getNext_float s m nb with Some (f, nb') => Some (VF f, nb') | None => None end
  end.

Fixpoint read_all (m : mem) (nb : nibbler) (qs : list request) : option (list value) :=
  match qs with
  | [] => Some []
  | q :: qs' =>
      match read_one m nb q with
      | Some (v, nb') =>
          match read_all m nb' qs' with Some vs => Some (v :: vs) | None => None end
      | None => None
      end
  end.

Lemma read_one_at : forall m nb x xs q v, wf_pval x ->
  expected x q = Some v -> nibbler_at m nb (x :: xs) ->
  exists nb', read_one m nb q = Some (v, nb') /\ nibbler_at m nb' xs.
Proof.
  intros m nb x xs q v Hx He Hn.
  destruct x as [n u|u|u|u|bs], q as [t| |size]; cbn [expected] in He; try discriminate;
    try (destruct (Nat.leb _ _) eqn:E in He; [|discriminate]; apply Nat.leb_le in E).
  1-3: injection He as <-;
    destruct (getNext_int_at t m nb _ xs u _ Hx eq_refl E Hn) as (nb' & G & N & _);
    exists nb'; cbn [read_one]; rewrite G; auto.
  - injection He as <-.
    destruct (getNext_int_at (Ity false 8) m nb _ xs u _ Hx eq_refl (le_n 8) Hn) as (nb' & G & N & _).
    exists nb'; cbn [read_one]; unfold getNext_ptr; rewrite G.
    rewrite cast_id; [auto|cbn; lia|cbn in *; lia].
  - destruct ((size =? 8) || (size =? 16)) eqn:Es; [|discriminate].
    assert (exists f, pflt size bs = Some f /\ v = VF f) as (f & Hf & ->).
    { unfold pflt. destruct (Nat.eqb (length bs) 4) eqn:E4.
      - apply Nat.eqb_eq in E4. unfold zlen. rewrite E4. injection He as <-. eexists; split; reflexivity.
      - apply Nat.eqb_neq in E4. replace (zlen bs =? 4) with false by (unfold zlen; lia).
        destruct (zlen bs =? size); [|discriminate]. injection He as <-. eexists; split; reflexivity. }
    destruct (getNext_float_at size m nb bs xs f) as (nb' & G & N & _); auto; [lia|].
    exists nb'; cbn [read_one]; rewrite G; auto.
Qed.

Lemma read_all_at : forall qs m nb xs vs, Forall wf_pval xs ->
  expected_all xs qs = Some vs -> nibbler_at m nb xs -> read_all m nb qs = Some vs.
Proof.
  induction qs as [|q qs IH]; intros m nb xs vs Hx He Hn; destruct xs as [|x xs];
    cbn [expected_all read_all] in *; try discriminate; auto.
  inversion Hx; subst.
  destruct (expected x q) eqn:E1; [|discriminate].
  destruct (expected_all xs qs) eqn:E2; [|discriminate]. injection He as <-.
  destruct (read_one_at m nb x xs q v) as (nb' & -> & N); auto.
  now rewrite (IH m nb' xs l).
Qed.

(** After packing any values behind a nibble array at [a], in any memory, the
    nibbles alone give the end of the values, and a Nibbler returns the values
    in order.  The bound on the number of values is the range of the 32 bit
    size computation. *)
Theorem C04_block_roundtrip : forall xs qs vs m m' a mem1 out' hi',
  Forall wf_pval xs -> 16 * zlen xs < 2 ^ 32 ->
  pack_seq m a 0 (a + (zlen xs + 1) / 2) a xs = (mem1, out', hi') ->
  agree mem1 m' a out' ->
  expected_all xs qs = Some vs ->
  a + (zlen xs + 1) / 2 + getSizeOfPackedValues m' a (zlen xs) = out' /\
  nb_end (nibbler_init m' a (zlen xs)) = out' /\
  read_all m' (nibbler_init m' a (zlen xs)) qs = Some vs.
Proof.
  intros xs qs vs m m' a mem1 out' hi' Hx Hs E Ha He.
  pose proof (pack_seq_spec _ _ _ _ _ _ _ _ _ Hx (Z.le_refl 0) (Z.le_refl _) E) as (E1 & E2 & E3 & _).
  pose proof (zlen_nonneg _ xs). pose proof (zlen_nonneg _ (pvalues xs)).
  assert (block_at m' a xs) as Hb.
  { split.
    - replace a with (a + 0 / 2) by lia. change true with (negb (Z.odd 0)).
      apply nibbles_from_nib; [lia|]. intros i Hi. unfold pcodes in Hi. rewrite map_length in Hi.
      rewrite <- E3 by lia. symmetry. apply nib_ext. apply Ha. unfold zlen in *. lia.
    - rewrite <- E2 at 2. apply load_ext. intros. symmetry. apply Ha. unfold zlen in *. lia. }
  pose proof (nibbler_init_at m' a xs Hx Hs Hb) as Hn.
  assert (nb_end (nibbler_init m' a (zlen xs)) = out') as Hend.
  { destruct Hn as (_ & _ & ->). cbn. lia. }
  split; [|split]; auto.
  eapply read_all_at; eauto.
Qed.
Print Assumptions C04_block_roundtrip.

(** The reader cannot be made to read past the last value: the assertion of
    getNext stops it. *)
Lemma read_all_past : forall qs xs vs m nb q, Forall wf_pval xs ->
  expected_all xs qs = Some vs -> nibbler_at m nb xs -> read_all m nb (qs ++ [q]) = None.
Proof.
  induction qs as [|q0 qs IH]; intros xs vs m nb q Hx He Hn; destruct xs as [|x xs];
    cbn [expected_all] in *; try discriminate.
  - destruct Hn as (_ & _ & Hn). unfold pvalues in Hn. cbn [map concat] in Hn. rewrite zlen_nil in Hn.
    cbn [app read_all]. unfold read_one, getNext_ptr, getNext_int, getNext_float, nibbler_ready.
    replace (nb_cur nb <? nb_end nb) with false by lia. destruct q; reflexivity.
  - inversion Hx; subst.
    destruct (expected x q0) eqn:E1; [|discriminate].
    destruct (expected_all xs qs) eqn:E2; [|discriminate].
    destruct (read_one_at m nb x xs q0 v) as (nb' & E & N); auto.
    cbn [app read_all]. rewrite E. now rewrite (IH xs l m nb' q).
Qed.

Theorem C04_exhausted : forall xs qs vs m m' a mem1 out' hi' q,
  Forall wf_pval xs -> 16 * zlen xs < 2 ^ 32 ->
  pack_seq m a 0 (a + (zlen xs + 1) / 2) a xs = (mem1, out', hi') ->
  agree mem1 m' a out' ->
  expected_all xs qs = Some vs ->
  read_all m' (nibbler_init m' a (zlen xs)) (qs ++ [q]) = None.
Proof.
  intros xs qs vs m m' a mem1 out' hi' q Hx Hs E Ha He.
  pose proof (pack_seq_spec _ _ _ _ _ _ _ _ _ Hx (Z.le_refl 0) (Z.le_refl _) E) as (E1 & E2 & E3 & _).
  pose proof (zlen_nonneg _ xs). pose proof (zlen_nonneg _ (pvalues xs)).
  destruct (pack_seq_block _ _ _ _ _ _ _ Hx E) as [Hb _].
  assert (block_at m' a xs).
  { apply (block_moved xs mem1 a m' a (out' - a)); auto; [|lia]. intros i Hi. symmetry. apply Ha. lia. }
  apply (read_all_past qs xs vs); auto. now apply nibbler_init_at.
Qed.
Print Assumptions C04_exhausted.

Example C04_exhausted_instance :
  let xs := [PS32 (-5)] in
  let '(m1, _, _) := pack_seq (fun _ => 255) 10 0 11 10 xs in
  read_all m1 (nibbler_init m1 10 1) [RInt (Ity true 4)] = Some [VI (-5)] /\
  read_all m1 (nibbler_init m1 10 1) [RInt (Ity true 4); RInt (Ity true 4)] = None.
Proof. vm_compute. auto. Qed.

Example C04_instance :
  let xs := [PS32 (-5); PFlt [0;0;0;0;0;0;240;63]; PUns 8 70000] in
  let '(m1, out, _) := pack_seq (fun _ => 255) 10 0 12 10 xs in
  out = 24 /\
  read_all m1 (nibbler_init m1 10 3) [RInt (Ity true 4); RFloat 8; RInt (Ity false 8)]
  = Some [VI (-5); VF (F64 [0;0;0;0;0;0;240;63]); VI 70000].
Proof. vm_compute. auto. Qed.
