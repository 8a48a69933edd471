(** Lemmas on the preprocessor model. *)
From Verif Require Import Base BaseProofs Chars Fmt FmtProofs Regex MicroCode MicroCodeProofs DecodeProofs Preproc.

(** ** Decimal numbers *)
Definition is_digit (c : Z) : Prop := 48 <= c <= 57.

Lemma dec_digits_spec : forall f n acc, 0 <= n < 2 ^ Z.of_nat f -> (0 < f)%nat ->
  exists ds, dec_digits f n acc = ds ++ acc /\ ds <> [] /\ Forall is_digit ds /\ dec_val ds = n.
Proof.
  induction f as [|f IH]; intros n acc Hn Hf; [lia|]. cbn [dec_digits].
  destruct (n <? 10) eqn:E.
  - exists [48 + n]. splits; [reflexivity|discriminate|repeat constructor; unfold is_digit; lia|].
    unfold dec_val. cbn [fold_left]. lia.
  - rewrite Nat2Z.inj_succ, Z.pow_succ_r in Hn by lia.
    destruct f as [|f]; [cbn in Hn; lia|].
    destruct (IH (n / 10) (48 + n mod 10 :: acc)) as (ds & -> & N & D & V); [|lia|].
    { split; [lia|]. pose proof (Z.pow_pos_nonneg 2 (Z.of_nat (S f)) ltac:(lia) ltac:(lia)). lia. }
    exists (ds ++ [48 + n mod 10]). splits.
    + rewrite <- app_assoc. reflexivity.
    + intro X. apply app_eq_nil in X. destruct X. congruence.
    + apply Forall_app. split; auto. repeat constructor; unfold is_digit; lia.
    + unfold dec_val in *. rewrite fold_left_app, V. cbn [fold_left]. lia.
Qed.

Lemma dec_str_spec : forall n, 0 <= n -> dec_str n <> [] /\ Forall is_digit (dec_str n) /\ dec_val (dec_str n) = n.
Proof.
  intros n H. unfold dec_str.
  destruct (dec_digits_spec (S (Z.to_nat (Z.log2 n))) n []) as (ds & -> & N & D & V); [|lia|rewrite app_nil_r; auto].
  rewrite Nat2Z.inj_succ, Z2Nat.id by apply Z.log2_nonneg.
  destruct (Z.eq_dec n 0) as [->|]; [cbn; lia|]. pose proof (Z.log2_spec n). lia.
Qed.

Lemma dec_str_inj : forall a b, 0 <= a -> 0 <= b -> dec_str a = dec_str b -> a = b.
Proof.
  intros a b Ha Hb E. rewrite <- (proj2 (proj2 (dec_str_spec a Ha))), <- (proj2 (proj2 (dec_str_spec b Hb))). now f_equal.
Qed.

(** ** Identifiers *)
Lemma encode_no_sep : forall s, Forall (fun c => 0 <= c) s -> ~ In 95 (encode s).
Proof.
  intros s H Hin. unfold encode in Hin. apply in_flat_map in Hin. destruct Hin as (c & Hc & Hin).
  rewrite Forall_forall in H. specialize (H c Hc). unfold encode_char in Hin.
  destruct (is_alnum c) eqn:E.
  - destruct Hin as [->|[]]. discriminate E.
  - destruct (dec_str_spec c H) as (_ & D & _). rewrite Forall_forall in D. specialize (D 95 Hin). unfold is_digit in D. lia.
Qed.

Lemma sep_split : forall a b x y, ~ In 95 a -> ~ In 95 b -> a ++ 95 :: x = b ++ 95 :: y -> a = b /\ x = y.
Proof.
  induction a as [|c a IH]; intros [|d b] x y Ha Hb E; cbn [app] in E.
  - split; congruence.
  - exfalso. apply Hb. left. congruence.
  - exfalso. apply Ha. left. congruence.
  - assert (c = d) as -> by congruence. assert (E' : a ++ 95 :: x = b ++ 95 :: y) by congruence.
    apply IH in E' as [-> ->]; auto.
    + intro H. apply Ha. right. exact H.
    + intro H. apply Hb. right. exact H.
Qed.

Lemma log_id_inj : forall f1 n1 l1 f2 n2 l2,
  Forall (fun c => 0 <= c) (f1 ++ n1 ++ f2 ++ n2) -> 0 <= l1 -> 0 <= l2 ->
  (log_id f1 n1 l1 = log_id f2 n2 l2 <-> encode f1 = encode f2 /\ encode n1 = encode n2 /\ l1 = l2).
Proof.
  intros f1 n1 l1 f2 n2 l2 H L1 L2. rewrite !Forall_app in H. destruct H as (H1 & H2 & H3 & H4).
  split; [|intros (E1 & E2 & ->); unfold log_id; now rewrite E1, E2].
  unfold log_id. change (chars "__") with [95; 95]. cbn [app]. intro E.
    apply (f_equal (fun l => tl (tl l))) in E. cbn [tl] in E.
    apply sep_split in E as [E1 E]; try (apply encode_no_sep; assumption).
    apply (f_equal (fun l => tl l)) in E. cbn [tl] in E.
    apply sep_split in E as [E2 E]; try (apply encode_no_sep; assumption).
    apply (f_equal (fun l => tl l)) in E. cbn [tl] in E.
    assert (D : forall n, 0 <= n -> ~ In 95 (dec_str n)).
    { intros n Hn Hin. destruct (dec_str_spec n Hn) as (_ & D & _). rewrite Forall_forall in D. specialize (D 95 Hin).
      unfold is_digit in D. lia. }
    apply sep_split in E as [E3 _]; auto. splits; auto. now apply dec_str_inj.
Qed.

(** Printable characters other than decimal digits are encoded by a prefix code. *)
Definition wordy (c : Z) : bool := in_rng 32 126 c && negb (is_dig c).

Definition dec_one (l : list Z) : option (Z * list Z) :=
  match l with
  | a :: r =>
    if is_dig a then
      match r with
      | b :: r' =>
        if (a =? 49) && (b =? 50) then
          match r' with c :: r'' => Some (dec_val [a; b; c], r'') | [] => None end
        else Some (dec_val [a; b], r')
      | [] => None
      end
    else Some (a, r)
  | [] => None
  end.

Lemma dec_one_encode : forall c r, wordy c = true -> dec_one (encode_char c ++ r) = Some (c, r).
Proof.
  intros c r H. assert (Hin : In c (map Z.of_nat (seq 32 95))).
  { unfold wordy, in_rng in H. apply in_map_iff. exists (Z.to_nat c). rewrite in_seq. lia. }
  cbn [seq map] in Hin. cbv [Z.of_nat Pos.of_succ_nat Pos.succ] in Hin.
  repeat (destruct Hin as [<-|Hin]; [first [discriminate H | reflexivity]|]). destruct Hin.
Qed.

Lemma encode_inj : forall a b, forallb wordy a = true -> forallb wordy b = true -> encode a = encode b -> a = b.
Proof.
  induction a as [|c a IH]; intros [|d b] Ha Hb E; auto; cbn [encode flat_map forallb] in *.
  - apply andb_true_iff in Hb as [Hb _]. exfalso.
    pose proof (dec_one_encode d (encode b) Hb) as D. unfold encode in D. rewrite <- E in D. discriminate D.
  - apply andb_true_iff in Ha as [Ha _]. exfalso.
    pose proof (dec_one_encode c (encode a) Ha) as D. unfold encode in D. rewrite E in D. discriminate D.
  - apply andb_true_iff in Ha as [Hc Ha]. apply andb_true_iff in Hb as [Hd Hb].
    pose proof (dec_one_encode c (encode a) Hc) as D1. pose proof (dec_one_encode d (encode b) Hd) as D2.
    unfold encode in *. rewrite E in D1. rewrite D1 in D2.
    assert (c = d) as -> by congruence. f_equal. apply IH; auto. congruence.
Qed.

Lemma wordy_nonneg : forall s, forallb wordy s = true -> Forall (fun c => 0 <= c) s.
Proof.
  intros s H. apply Forall_forall. intros c Hc. rewrite forallb_forall in H. specialize (H c Hc).
  unfold wordy, in_rng in H. lia.
Qed.

(** ** Tables *)
Lemma zlist_eqb_spec : forall a b, zlist_eqb a b = true <-> a = b.
Proof.
  induction a as [|x a IH]; intros [|y b]; cbn [zlist_eqb]; split; intro H; try discriminate H; auto.
  - apply andb_true_iff in H as [H1 H2]. apply IH in H2. f_equal; auto. lia.
  - assert (x = y) by congruence. assert (a = b) by congruence. subst. apply andb_true_iff. split; [lia|now apply IH].
Qed.

Definition key (s : stmt) : list Z := log_id (st_fmt s) (st_file s) (st_line s).

Lemma lookup_app : forall k t u, lookup k (t ++ u) = match lookup k t with Some s => Some s | None => lookup k u end.
Proof.
  intros k t u. induction t as [|[k' s] t IH]; cbn [app lookup]; auto. destruct (zlist_eqb k k'); auto.
Qed.

Definition filed (t : table) (ss : list stmt) : Prop :=
  (forall s, In s ss -> exists e, lookup (key s) t = Some e) /\
  (forall k e, lookup k t = Some e -> k = invalid_key \/ (k = key e /\ In e ss)).

Lemma generate_filed : forall t ss s, filed t ss -> filed (generate t s) (ss ++ [s]).
Proof.
  intros t ss s [H1 H2]. unfold generate. fold (key s). destruct (lookup (key s) t) as [e|] eqn:E.
  - split.
    + intros x Hx. apply in_app_iff in Hx as [Hx|[<-|[]]]; eauto.
    + intros k x Hx. destruct (H2 k x Hx) as [->|[-> Hi]]; auto. right. rewrite in_app_iff. auto.
  - split.
    + intros x Hx. rewrite lookup_app. destruct (lookup (key x) t) eqn:F; eauto.
      apply in_app_iff in Hx as [Hx|[<-|[]]].
      * destruct (H1 x Hx). congruence.
      * exists s. cbn [lookup]. now rewrite (proj2 (zlist_eqb_spec (key s) (key s)) eq_refl).
    + intros k x Hx. rewrite lookup_app in Hx. destruct (lookup k t) as [y|] eqn:F.
      * assert (y = x) as -> by congruence. destruct (H2 k x F) as [->|[-> Hi]]; auto. right. rewrite in_app_iff. auto.
      * cbn [lookup] in Hx. destruct (zlist_eqb k (key s)) eqn:K; [|discriminate Hx].
        apply zlist_eqb_spec in K. assert (s = x) as <- by congruence. right. rewrite in_app_iff. cbn. auto.
Qed.

Lemma process_filed : forall u, filed (process u) u.
Proof.
  intro u. unfold process. induction u as [|s u IH] using rev_ind.
  - split; [intros s []|]. intros k e H. cbn [lookup table_init fold_left] in H.
    destruct (zlist_eqb k invalid_key) eqn:K; [|discriminate H]. apply zlist_eqb_spec in K. auto.
  - rewrite fold_left_app. cbn [fold_left]. now apply generate_filed.
Qed.

Lemma lookup_concat : forall k ts e, lookup k (concat ts) = Some e -> exists t, In t ts /\ lookup k t = Some e.
Proof.
  induction ts as [|t ts IH]; intros e H; cbn [concat lookup] in H; [discriminate H|].
  rewrite lookup_app in H. destruct (lookup k t) as [x|] eqn:E.
  - exists t. split; [now left|congruence].
  - destruct (IH e H) as (t' & A & B). exists t'. split; [now right|exact B].
Qed.

Lemma lookup_concat_some : forall k ts t e, In t ts -> lookup k t = Some e -> exists e', lookup k (concat ts) = Some e'.
Proof.
  induction ts as [|u ts IH]; intros t e Hin H; [destruct Hin|]. cbn [concat]. rewrite lookup_app.
  destruct (lookup k u) as [x|] eqn:E; [eauto|]. destruct Hin as [->|Hin]; [congruence|eauto].
Qed.

Lemma merge_lookup : forall units s, In s (concat units) -> key s <> invalid_key ->
  exists e, lookup (key s) (merge units) = Some e /\ In e (concat units) /\ key e = key s.
Proof.
  intros units s Hin HK. apply in_concat in Hin. destruct Hin as (u & Hu & Hs).
  destruct (proj1 (process_filed u) s Hs) as (x & Hx).
  destruct (lookup_concat_some (key s) (rev (map process units)) (process u) x) as (e & He); auto.
  { apply -> in_rev. now apply in_map. }
  exists e. split; [exact He|]. destruct (lookup_concat _ _ _ He) as (t & Ht & Hl).
  apply in_rev, in_map_iff in Ht. destruct Ht as (u' & <- & Hu').
  destruct (proj2 (process_filed u') _ _ Hl) as [X|[X Y]]; [contradiction|].
  split; [apply in_concat; eauto|auto].
Qed.

Lemma key_valid : forall s, Forall (fun c => 0 <= c) (st_fmt s ++ st_file s) -> 0 <= st_line s -> key s <> invalid_key.
Proof.
  intros s H L E. rewrite Forall_app in H. destruct H as [H1 H2].
  unfold key, log_id, invalid_key in E. change (chars "__") with [95; 95] in E.
  change (chars "__INVALID__INVALID__INVALID__") with ([95; 95] ++ chars "INVALID" ++ 95 :: 95 :: chars "INVALID" ++ 95 :: 95 :: chars "INVALID" ++ [95; 95]) in E.
  cbn [app] in E. apply (f_equal (fun l => tl (tl l))) in E. cbn [tl] in E.
  assert (NI : ~ In 95 (chars "INVALID")) by (cbv; intuition discriminate).
  apply (sep_split (encode (st_fmt s)) (chars "INVALID")) in E as [_ E]; auto; [|apply encode_no_sep; assumption].
  apply (f_equal (fun l => tl l)) in E. cbn [tl] in E.
  apply (sep_split (encode (st_file s)) (chars "INVALID")) in E as [_ E]; auto; [|apply encode_no_sep; assumption].
  apply (f_equal (fun l => tl l)) in E. cbn [tl] in E.
  destruct (dec_str_spec _ L) as (N & D & _). destruct (dec_str (st_line s)) as [|d ds]; [congruence|].
  inversion D; subst. cbn [app chars] in E. apply (f_equal hd0) in E. cbn in E. unfold is_digit in *. lia.
Qed.
