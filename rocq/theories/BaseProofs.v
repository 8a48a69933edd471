(** Lemmas about [Base]. *)
From Verif Require Import Base.

Lemma zlen_nil : forall A, zlen (@nil A) = 0.
Proof. reflexivity. Qed.

Lemma zlen_cons : forall A (x : A) l, zlen (x :: l) = 1 + zlen l.
Proof. intros; unfold zlen; cbn [length]; lia. Qed.

Lemma zlen_app : forall A (a b : list A), zlen (a ++ b) = zlen a + zlen b.
Proof. intros; unfold zlen; rewrite app_length; lia. Qed.

Lemma zlen_nonneg : forall A (l : list A), 0 <= zlen l.
Proof. intros; unfold zlen; lia. Qed.

Lemma zlen_map : forall A B (f : A -> B) l, zlen (map f l) = zlen l.
Proof. intros; unfold zlen; rewrite map_length; lia. Qed.

Lemma pow256_pos : forall n, 0 < 256 ^ Z.of_nat n.
Proof. intros; apply Z.pow_pos_nonneg; lia. Qed.

Lemma pow256_S : forall n, 256 ^ Z.of_nat (S n) = 256 * 256 ^ Z.of_nat n.
Proof. intros; rewrite Nat2Z.inj_succ, Z.pow_succ_r; lia. Qed.

Lemma pow256_pow2 : forall n, 0 <= n -> 256 ^ n = 2 ^ (8 * n).
Proof. intros; rewrite Z.pow_mul_r by lia; reflexivity. Qed.

Lemma le_bytes_length : forall n v, length (le_bytes n v) = n.
Proof. induction n; intros; cbn; auto. Qed.

Lemma le_bytes_zlen : forall n v, zlen (le_bytes n v) = Z.of_nat n.
Proof. intros; unfold zlen; now rewrite le_bytes_length. Qed.

Lemma le_bytes_is_byte : forall n v, Forall is_byte (le_bytes n v).
Proof.
  induction n; intros; cbn; constructor; auto.
  unfold is_byte; apply Z.mod_pos_bound; lia.
Qed.

Lemma le_val_le_bytes : forall n v, le_val (le_bytes n v) = v mod 256 ^ Z.of_nat n.
Proof.
  induction n; intros.
  - cbn. rewrite Z.mod_1_r; reflexivity.
  - cbn [le_bytes le_val]. rewrite IHn, pow256_S.
    rewrite Z.rem_mul_r by (pose proof (pow256_pos n); lia). lia.
Qed.

Lemma le_val_bound : forall bs, Forall is_byte bs ->
  0 <= le_val bs < 256 ^ zlen bs.
Proof.
  induction bs; intros.
  - cbn; lia.
  - inversion H; subst. specialize (IHbs H3). cbn [le_val].
    unfold zlen in *; cbn [length]. rewrite pow256_S. unfold is_byte in H2. nia.
Qed.

Lemma le_bytes_mod : forall n v, le_bytes n (v mod 256 ^ Z.of_nat n) = le_bytes n v.
Proof.
  induction n; intros; [reflexivity|].
  cbn [le_bytes]. rewrite pow256_S.
  pose proof (pow256_pos n).
  rewrite Z.rem_mul_r by lia.
  f_equal.
  - rewrite (Z.mul_comm 256), Z_mod_plus_full. apply Z.mod_mod; lia.
  - rewrite <- (IHn (v / 256)). f_equal.
    rewrite Z.mul_comm, Z.div_add by lia.
    rewrite (Z.div_small (v mod 256) 256) by (apply Z.mod_pos_bound; lia). lia.
Qed.

Lemma le_bytes_le_val : forall bs, Forall is_byte bs ->
  le_bytes (length bs) (le_val bs) = bs.
Proof.
  induction bs; intros; [reflexivity|].
  inversion H; subst. cbn [length le_bytes le_val].
  unfold is_byte in H2. f_equal.
  - rewrite Z.mul_comm, Z_mod_plus_full, Z.mod_small; lia.
  - rewrite Z.mul_comm, Z.div_add by lia.
    rewrite Z.div_small by lia. rewrite Z.add_0_l. auto.
Qed.

Lemma le_bytes_firstn : forall k n v, (k <= n)%nat ->
  firstn k (le_bytes n v) = le_bytes k v.
Proof.
  induction k; intros; [reflexivity|].
  destruct n; [lia|]. cbn. f_equal. apply IHk; lia.
Qed.

Lemma le_bytes_inj : forall n a b,
  0 <= a < 256 ^ Z.of_nat n -> 0 <= b < 256 ^ Z.of_nat n ->
  le_bytes n a = le_bytes n b -> a = b.
Proof.
  intros. apply (f_equal le_val) in H1. rewrite !le_val_le_bytes in H1.
  rewrite !Z.mod_small in H1; lia.
Qed.

Lemma app_inj_length : forall A (a b c d : list A),
  length a = length c -> a ++ b = c ++ d -> a = c /\ b = d.
Proof.
  induction a as [|x a IH]; destruct c as [|y c]; cbn [length app]; intros; try discriminate; auto.
  injection H0 as -> H0. destruct (IH b c d); auto. split; congruence.
Qed.

(** Memory. *)
Lemma load_length : forall n m a, length (load m a n) = n.
Proof. induction n; intros; cbn; auto. Qed.

Lemma load_zlen : forall n m a, zlen (load m a n) = Z.of_nat n.
Proof. intros; unfold zlen; now rewrite load_length. Qed.

Lemma load_nth : forall n m a k d, (k < n)%nat ->
  nth k (load m a n) d = m (a + Z.of_nat k).
Proof.
  induction n; intros; [lia|].
  destruct k; cbn [load nth].
  - f_equal; lia.
  - rewrite IHn by lia. f_equal; lia.
Qed.

Lemma load_ext : forall n m m' a,
  (forall x, a <= x < a + Z.of_nat n -> m x = m' x) -> load m a n = load m' a n.
Proof.
  induction n; intros; cbn [load]; [reflexivity|].
  f_equal; [apply H; lia|]. apply IHn; intros; apply H; lia.
Qed.

Lemma load_app : forall n k m a,
  load m a (n + k) = load m a n ++ load m (a + Z.of_nat n) k.
Proof.
  induction n; intros; cbn [load Nat.add app].
  - now rewrite Z.add_0_r.
  - f_equal. rewrite IHn. f_equal. f_equal. lia.
Qed.

Lemma load_split : forall n m a bs1 bs2,
  load m a n = bs1 ++ bs2 ->
  load m a (length bs1) = bs1 /\ load m (a + zlen bs1) (length bs2) = bs2.
Proof.
  intros.
  assert (n = (length bs1 + length bs2)%nat) as ->
    by (apply (f_equal (@length Z)) in H; rewrite load_length, app_length in H; lia).
  rewrite load_app in H.
  apply app_inj_length in H; auto. now rewrite load_length.
Qed.

Lemma firstn_load : forall k n m a, (k <= n)%nat -> firstn k (load m a n) = load m a k.
Proof.
  induction k; intros; [reflexivity|]. destruct n; [lia|].
  cbn. f_equal. apply IHk; lia.
Qed.

Lemma store_outside : forall m a bs x,
  x < a \/ a + zlen bs <= x -> store m a bs x = m x.
Proof.
  intros. unfold store.
  destruct (a <=? x) eqn:E1, (x <? a + zlen bs) eqn:E2; cbn; auto; lia.
Qed.

Lemma store_inside : forall m a bs x,
  a <= x < a + zlen bs -> store m a bs x = nth (Z.to_nat (x - a)) bs 0.
Proof.
  intros. unfold store.
  destruct (a <=? x) eqn:E1, (x <? a + zlen bs) eqn:E2; cbn; auto; lia.
Qed.

Lemma load_nth_eq : forall n m a bs, length bs = n ->
  (forall k, (k < n)%nat -> m (a + Z.of_nat k) = nth k bs 0) -> load m a n = bs.
Proof.
  intros. apply nth_ext with (d := 0) (d' := 0).
  - rewrite load_length; lia.
  - intros. rewrite load_length in H1. rewrite load_nth by lia. apply H0; lia.
Qed.

Lemma load_store_same : forall m a bs, load (store m a bs) a (length bs) = bs.
Proof.
  intros. apply load_nth_eq; auto. intros.
  rewrite store_inside by (unfold zlen; lia). f_equal. lia.
Qed.

Lemma load_store_prefix : forall m a bs k, (k <= length bs)%nat ->
  load (store m a bs) a k = firstn k bs.
Proof.
  intros. rewrite <- (load_store_same m a bs) at 2. now rewrite firstn_load.
Qed.

Lemma load_store_disjoint : forall m a bs b n,
  b + Z.of_nat n <= a \/ a + zlen bs <= b ->
  load (store m a bs) b n = load m b n.
Proof. intros. apply load_ext; intros. apply store_outside. lia. Qed.

(** Conversions. *)
Lemma to_u_range : forall n v, 0 <= n -> 0 <= to_u n v < 2 ^ n.
Proof. intros; unfold to_u; apply Z.mod_pos_bound, Z.pow_pos_nonneg; lia. Qed.

Lemma pow2_half : forall n, 1 <= n -> 2 ^ n = 2 * 2 ^ (n - 1).
Proof. intros. rewrite <- Z.pow_succ_r by lia. f_equal; lia. Qed.

Lemma to_s_range : forall n v, 1 <= n -> - 2 ^ (n - 1) <= to_s n v < 2 ^ (n - 1).
Proof.
  intros; unfold to_s.
  pose proof (Z.mod_pos_bound v (2 ^ n) ltac:(apply Z.pow_pos_nonneg; lia)).
  pose proof (pow2_half n H).
  destruct (v mod 2 ^ n <? 2 ^ (n - 1)) eqn:E; lia.
Qed.

Lemma to_s_mod : forall n v, 1 <= n -> to_s n v mod 2 ^ n = v mod 2 ^ n.
Proof.
  intros; unfold to_s.
  assert (0 < 2 ^ n) by (apply Z.pow_pos_nonneg; lia).
  destruct (v mod 2 ^ n <? 2 ^ (n - 1)).
  - apply Z.mod_mod; lia.
  - replace (v mod 2 ^ n - 2 ^ n) with (v mod 2 ^ n + (-1) * 2 ^ n) by lia.
    rewrite Z_mod_plus_full. apply Z.mod_mod; lia.
Qed.

Lemma to_s_id : forall n v, 1 <= n -> - 2 ^ (n - 1) <= v < 2 ^ (n - 1) -> to_s n v = v.
Proof.
  intros; unfold to_s. pose proof (pow2_half n H).
  assert (0 < 2 ^ (n - 1)) by (apply Z.pow_pos_nonneg; lia).
  destruct (Z_lt_dec v 0).
  - assert (v mod 2 ^ n = v + 2 ^ n) as ->.
    { symmetry; apply Z.mod_unique_pos with (q := -1); lia. }
    destruct (v + 2 ^ n <? 2 ^ (n - 1)) eqn:E; lia.
  - rewrite Z.mod_small by lia. destruct (v <? 2 ^ (n - 1)) eqn:E; lia.
Qed.

Lemma to_u_id : forall n v, 0 <= v < 2 ^ n -> to_u n v = v.
Proof. intros; unfold to_u; apply Z.mod_small; lia. Qed.

Lemma to_s_cong : forall n a b, a mod 2 ^ n = b mod 2 ^ n -> to_s n a = to_s n b.
Proof. intros; unfold to_s; now rewrite H. Qed.

Lemma cast_cong : forall t a b,
  a mod 2 ^ (it_bits t) = b mod 2 ^ (it_bits t) -> cast t a = cast t b.
Proof. intros; unfold cast, to_u; destruct (it_signed t); auto using to_s_cong. Qed.

Lemma cast_id : forall t v, (0 < it_bytes t)%nat -> in_range t v -> cast t v = v.
Proof.
  intros [s n] v Hn H. unfold cast, in_range, it_bits in *; cbn [it_signed it_bytes] in *.
  destruct s; [apply to_s_id; lia|apply to_u_id; lia].
Qed.

Lemma cast_in_range : forall t v, (0 < it_bytes t)%nat -> in_range t (cast t v).
Proof.
  intros [s n] v Hn. unfold cast, in_range, it_bits in *; cbn [it_signed it_bytes] in *.
  destruct s; [apply to_s_range; lia|apply to_u_range; lia].
Qed.

Lemma mod_mod_pow : forall v a b, 0 <= a <= b -> (v mod 2 ^ b) mod 2 ^ a = v mod 2 ^ a.
Proof.
  intros. assert (0 < 2 ^ a) by (apply Z.pow_pos_nonneg; lia).
  assert (0 < 2 ^ b) by (apply Z.pow_pos_nonneg; lia).
  replace (2 ^ b) with (2 ^ a * 2 ^ (b - a)) by (rewrite <- Z.pow_add_r by lia; f_equal; lia).
  assert (0 < 2 ^ (b - a)) by (apply Z.pow_pos_nonneg; lia).
  rewrite Z.rem_mul_r by lia.
  rewrite Z.mul_comm, Z_mod_plus_full. apply Z.mod_mod; lia.
Qed.

Lemma firstn_app_exact : forall A (a b : list A), firstn (length a) (a ++ b) = a.
Proof. intros. rewrite firstn_app, Nat.sub_diag, firstn_all, firstn_O. apply app_nil_r. Qed.

Lemma skipn_app_exact : forall A (a b : list A), skipn (length a) (a ++ b) = b.
Proof. intros. rewrite skipn_app, Nat.sub_diag, skipn_all. reflexivity. Qed.

Lemma moved_load : forall m o m' o' n a k, moved m o m' o' n -> 0 <= a -> a + Z.of_nat k <= n ->
  load m' (o' + a) k = load m (o + a) k.
Proof.
  intros m o m' o' n a k. revert a. induction k as [|k IH]; intros a H Ha Hk; [reflexivity|].
  cbn [load]. f_equal; [apply H; lia|]. rewrite <- !Z.add_assoc. apply IH; auto; lia.
Qed.
