(** The compression thread's scan over the staging buffers. *)
From Verif Require Import Base BaseProofs FrontFmt Args ArgsProofs DecodeProofs Encoder Wire EncoderProofs Prop_Encoder Prop_Decoder
  Ring RingProofs Prop_Ring Runtime RtRing RtBuf RtInv RtSafe RtFile.
From Coq Require Import Permutation.

Ltac Zify.zify_post_hook ::= Z.div_mod_to_equations.

(** ** Definitions *)

Definition at_rest (pc : cpc) : Prop := match pc with CIdle | CHave _ => True | _ => False end.

(** Where the consumer of the buffer looked at may be. *)
Definition cur_pc (k : kpc) (pc : cpc) : Prop :=
  match k with
  | KPeek => match pc with CPeek _ | CRoll _ | CHave _ => True | _ => False end
  | KEnc => match pc with CHave _ => True | _ => False end
  | KCheck => pc = CCheck
  | _ => at_rest pc
  end.

Definition next_i (i : Z) : Z := if i =? 2 ^ 64 - 1 then 0 else i + 1.

(** Position [p] has been passed. *)
Definition covered (k : kpc) (last i p : Z) : Prop :=
  match k with
  | KScan | KPeek | KEnc | KCheck => if last <=? i then last <= p < i else last <= p \/ p < i
  | KNext => if last <? next_i i then last <= p < next_i i else last <= p \/ p < next_i i
  | KIdle => True
  | _ => False
  end.

Definition cov (Q : buf -> Prop) (k : kpc) (last i : Z) (bufs : list buf) : Prop :=
  forall p b, nth_error bufs p = Some b -> covered k last i (Z.of_nat p) -> Q b.

Definition looked (t : rt) (b : buf) : Prop := In (b_id b) (t_gseen t) \/ ~ In (b_id b) (t_gstart t).

Definition inv_index (k : kpc) (last i : Z) (bufs : list buf) : Prop :=
  0 <= last /\ (last < zlen bufs \/ (bufs = [] /\ last = 0)) /\
  match k with
  | KScan => 0 <= i /\ (i < zlen bufs \/ (bufs = [] /\ i = 0))
  | KPeek | KEnc | KCheck => 0 <= i < zlen bufs
  | KNext => bufs <> [] /\ (0 <= i < zlen bufs \/ i = 2 ^ 64 - 1)
  | _ => True
  end.

Definition inv_pcs (k : kpc) (i : Z) (bufs : list buf) : Prop :=
  forall p b, nth_error bufs p = Some b ->
    if Z.of_nat p =? i then cur_pc k (c_pc (r_c (b_ring b))) else at_rest (c_pc (r_c (b_ring b))).

Definition inv_scan (t : rt) : Prop :=
  inv_index (t_kpc t) (t_klast t) (t_ki t) (t_bufs t) /\
  inv_pcs (t_kpc t) (t_ki t) (t_bufs t) /\
  (forall id, In id (t_gstart t) -> In id (map b_id (t_bufs t) ++ map b_id (t_gone t))) /\
  (t_kpc t = KEnc \/ t_kpc t = KCheck -> forall b, nth_error (t_bufs t) (Z.to_nat (t_ki t)) = Some b -> looked t b) /\
  Forall (looked t) (t_gone t) /\
  (t_skip t = false -> t_kfull t = false -> cov (looked t) (t_kpc t) (t_klast t) (t_ki t) (t_bufs t)).

(** ** What the other threads do *)

Definition keep (b b' : buf) : Prop := b_id b' = b_id b /\ c_pc (r_c (b_ring b')) = c_pc (r_c (b_ring b)).

Lemma Forall2_nth_r : forall A B (R : A -> B -> Prop) l l' p y, Forall2 R l l' -> nth_error l' p = Some y -> exists x, nth_error l p = Some x /\ R x y.
Proof. intros A B R l l' p y H. revert p. induction H; intros [|p] E; try discriminate; cbn in *; eauto. apply some_inj in E. subst. eauto. Qed.

Lemma Forall2_zlen : forall A B (R : A -> B -> Prop) l l', Forall2 R l l' -> zlen l' = zlen l.
Proof. intros A B R l l' H. unfold zlen. f_equal. induction H; cbn; auto. Qed.

Lemma keep_update : forall bufs j b b', nth_error bufs j = Some b -> keep b b' -> Forall2 keep bufs (update j b' bufs).
Proof.
  assert (R : forall l, Forall2 keep l l) by (induction l; constructor; auto; split; auto).
  induction bufs as [|a bufs IH]; intros [|j] b b' H K; try discriminate; cbn in *.
  - apply some_inj in H. subst. constructor; auto.
  - constructor; [split; auto|]. eapply IH; eauto.
Qed.

Lemma keep_ids : forall l l', Forall2 keep l l' -> map b_id l' = map b_id l.
Proof. intros l l' H. induction H as [|a b l l' (A & _)]; cbn; congruence. Qed.

Lemma scan_keep : forall t t', inv_scan t -> Forall2 keep (t_bufs t) (t_bufs t') -> t_gone t' = t_gone t ->
  t_kpc t' = t_kpc t -> t_klast t' = t_klast t -> t_ki t' = t_ki t -> t_kfull t' = t_kfull t -> t_skip t' = t_skip t ->
  t_gstart t' = t_gstart t -> t_gseen t' = t_gseen t -> inv_scan t'.
Proof.
  intros t t' (A & B & C & D & E & F) K E1 E2 E3 E4 E5 E6 E7 E8. unfold inv_scan, looked in *.
  rewrite E1, E2, E3, E4, E5, E6, E7, E8. assert (Z := Forall2_zlen _ _ _ _ _ K).
  assert (N : t_bufs t' = [] <-> t_bufs t = []) by (split; intro X; inversion K; congruence).
  splits; auto.
  - unfold inv_index in *. rewrite Z. destruct A as (A1 & A2 & A3). splits; auto; [tauto|].
    destruct (t_kpc t); auto; tauto.
  - intros p b' Hp. destruct (Forall2_nth_r _ _ _ _ _ _ _ K Hp) as (b & Hb & (K1 & K2)). rewrite K2. now apply (B p).
  - rewrite (keep_ids _ _ K). auto.
  - intros HP b' Hp. destruct (Forall2_nth_r _ _ _ _ _ _ _ K Hp) as (b & Hb & (K1 & K2)). rewrite K1. auto.
  - intros S1 S2 p b' Hp HC. destruct (Forall2_nth_r _ _ _ _ _ _ _ K Hp) as (b & Hb & (K1 & K2)). rewrite K1. eapply F; eauto.
Qed.

Lemma keep_refl : forall l, Forall2 keep l l.
Proof. induction l; constructor; auto. split; auto. Qed.

Definition outside (l : label) : bool := match l with LLog _ | LExit | LProducer | LCommitP | LCommitC => true | _ => false end.

Lemma outside_pc : forall size l r r', outside l = true -> ring_step size l r = Some r' -> c_pc (r_c r') = c_pc (r_c r).
Proof.
  intros size l r r' O E. destruct l; try discriminate O; unfold ring_step in E; cbv zeta in E.
  - destruct (p_pc (r_p r)); try discriminate. apply some_inj in E. now subst.
  - destruct (p_pc (r_p r)); try discriminate. apply some_inj in E. now subst.
  - destruct (producer_step _ _ _) as [[p' o]|]; [|discriminate]. apply some_inj in E. now subst.
  - destruct (p_sb (r_p r)); [discriminate|]. apply some_inj in E. now subst.
  - destruct (c_sb (r_c r)); [discriminate|]. apply some_inj in E. now subst.
Qed.

Lemma on_ring_scan : forall t j l t', inv_scan t -> outside l = true -> on_ring j l t = Some t' -> inv_scan t'.
Proof.
  intros t j l t' H O E. unfold on_ring in E. destruct (nth_error (t_bufs t) j) as [b|] eqn:EB; [|discriminate].
  destruct (ring_step _ _ _) as [r|] eqn:ER; [|discriminate]. apply some_inj in E. subst t'.
  eapply scan_keep; [exact H|rt_cbn..]; try reflexivity. eapply keep_update; eauto. split; auto. cbn [b_ring]. eapply outside_pc; eauto.
Qed.

Lemma push_scan : forall small t k t', inv small t -> inv_scan t -> rt_step (RPush k) t = Some t' -> inv_scan t'.
Proof.
  intros small t k t' HI (A & B & C & D & E & F) HS. cbn [rt_step] in HS. destruct (nth_error (t_pend t) k) as [id|] eqn:EK; [|discriminate].
  apply some_inj in HS. subst t'. inv_split HI. destruct HId as (I1 & _).
  assert (NI : ~ In id (map b_id (t_bufs t) ++ map b_id (t_gone t))).
  { intro X. rewrite app_assoc in I1. eapply NoDup_not_right; eauto. eapply nth_error_In; eauto. }
  unfold inv_scan, looked in *. rt_cbn.
  assert (N : forall p b, nth_error (t_bufs t ++ [Buf id (new_ring STAGING_BUFFER_SIZE) [] 0]) p = Some b ->
    nth_error (t_bufs t) p = Some b \/ (p = length (t_bufs t) /\ b = Buf id (new_ring STAGING_BUFFER_SIZE) [] 0)).
  { intros p b Hp. destruct (Nat.lt_ge_cases p (length (t_bufs t))); [rewrite nth_error_app1 in Hp; auto|].
    rewrite nth_error_app2 in Hp by auto. destruct (p - length (t_bufs t))%nat as [|m] eqn:EM.
    - right. apply some_inj in Hp. split; [lia|auto].
    - destruct m; discriminate. }
  splits.
  - unfold inv_index in *. rewrite zlen_app, zlen_cons, zlen_nil. destruct A as (A1 & A2 & A3). split; auto. split.
    + destruct A2 as [A2 | (-> & ->)]; [left; lia|left; rewrite zlen_nil; lia].
    + pose proof (zlen_nonneg _ (t_bufs t)).
      assert (NN : t_bufs t ++ [Buf id (new_ring STAGING_BUFFER_SIZE) [] 0] <> []) by (destruct (t_bufs t); discriminate).
      destruct (t_kpc t); try exact I; try lia; split; auto; lia.
  - intros p b Hp. destruct (N p b Hp) as [X | (-> & ->)]; [now apply (B p)|].
    destruct (Z.of_nat (length (t_bufs t)) =? t_ki t) eqn:EQ; [|exact I]. apply Z.eqb_eq in EQ.
    destruct A as (_ & _ & A3). fold (zlen (t_bufs t)) in EQ. destruct (t_kpc t); try exact I; exfalso; lia.
  - intros i Hi. apply C in Hi. rewrite map_app. apply in_app_or in Hi. repeat rewrite in_app_iff. tauto.
  - intros HP b Hp. destruct (N _ b Hp) as [X | (X & ->)]; [now apply (D HP)|]. right. intro Y. apply NI. auto.
  - auto.
  - intros S1 S2 p b Hp HC. destruct (N _ b Hp) as [X | (X & ->)]; [eapply F; eauto|]. right. intro Y. apply NI. auto.
Qed.

(** ** Moving on *)

Lemma next_i_u : forall i, 0 <= i < 2 ^ 64 -> to_u 64 (i + 1) = next_i i.
Proof. intros i H. unfold to_u, next_i. destruct (i =? 2 ^ 64 - 1) eqn:E; lia. Qed.

Lemma cov_next : forall (Q : buf -> Prop) last i bufs, inv_index KNext last i bufs -> zlen bufs < 2 ^ 32 -> cov Q KNext last i bufs ->
  let i' := to_u 64 (i + 1) mod zlen bufs in let k := if i' =? last then KIdle else KScan in
  cov Q k last i' bufs /\ inv_index k last i' bufs /\ 0 <= i' < zlen bufs.
Proof.
  intros Q last i bufs (A1 & A2 & A3 & A4) HN HC i' k.
  assert (N0 : 0 < zlen bufs) by (destruct bufs; [congruence|rewrite zlen_cons; pose proof (zlen_nonneg _ bufs); lia]).
  destruct A2 as [A2 | (A2 & _)]; [|congruence].
  assert (R : 0 <= i' < zlen bufs) by (apply Z.mod_pos_bound; lia).
  assert (X : next_i i <= zlen bufs /\ i' = if next_i i =? zlen bufs then 0 else next_i i).
  { subst i'. rewrite next_i_u by lia. unfold next_i. destruct (i =? 2 ^ 64 - 1) eqn:E.
    - split; [lia|]. destruct (0 =? zlen bufs) eqn:E2; [lia|]. apply Z.mod_small. lia.
    - split; [lia|]. destruct (i + 1 =? zlen bufs) eqn:E2; [apply Z.eqb_eq in E2; rewrite E2; apply Z.mod_same; lia|].
      apply Z.mod_small. lia. }
  destruct X as (X1 & X2). clearbody i'. split; [|split; [|exact R]].
  - intros p b Hp Hc. assert (HP : Z.of_nat p < zlen bufs) by (unfold zlen; apply inj_lt, nth_error_Some; congruence).
    apply (HC p b Hp). unfold covered in *. subst k.
    destruct (i' =? last) eqn:E1; destruct (last <? next_i i) eqn:E2; destruct (next_i i =? zlen bufs) eqn:E3;
      try (destruct (last <=? i') eqn:E4); lia.
  - unfold inv_index. subst k. split; auto. split; [auto|]. destruct (i' =? last); auto. split; [lia|left; lia].
Qed.

Lemma cov_pass : forall (Q : buf -> Prop) k last i bufs b, (k = KPeek \/ k = KEnc \/ k = KCheck) -> inv_index k last i bufs -> zlen bufs < 2 ^ 32 ->
  nth_error bufs (Z.to_nat i) = Some b -> Q b -> cov Q k last i bufs -> cov Q KNext last i bufs.
Proof.
  intros Q k last i bufs b HK (A1 & A2 & A3) HN HB HQ HC p b' Hp Hc.
  assert (R : 0 <= i < zlen bufs) by (destruct HK as [-> | [-> | ->]]; exact A3).
  destruct (Z.eq_dec (Z.of_nat p) i) as [E|NE].
  - subst i. rewrite Nat2Z.id in HB. congruence.
  - apply (HC p b' Hp). unfold covered in *. unfold next_i in Hc. destruct (i =? 2 ^ 64 - 1) eqn:E0; [lia|].
    destruct HK as [-> | [-> | ->]]; destruct (last <? i + 1) eqn:E1; destruct (last <=? i) eqn:E2; lia.
Qed.

Lemma index_pass : forall k last i bufs, (k = KPeek \/ k = KEnc \/ k = KCheck) -> inv_index k last i bufs -> inv_index KNext last i bufs.
Proof.
  intros k last i bufs HK (A1 & A2 & A3). assert (R : 0 <= i < zlen bufs) by (destruct HK as [-> | [-> | ->]]; exact A3).
  unfold inv_index. splits; auto. intros ->. rewrite zlen_nil in R. lia.
Qed.

Lemma nth_skipn : forall A k (l : list A) n, nth_error (skipn k l) n = nth_error l (k + n).
Proof. induction k as [|k IH]; intros [|x l] n; cbn; auto. now destruct n. Qed.

Lemma remove_nth : forall A i (l : list A) p, (i < length l)%nat ->
  nth_error (remove_at i l) p = nth_error l (if (p <? i)%nat then p else S p).
Proof.
  intros A i l p H. unfold remove_at. destruct (p <? i)%nat eqn:E.
  - apply Nat.ltb_lt in E. rewrite nth_error_app1 by (rewrite firstn_length; lia). now rewrite nth_firstn.
  - apply Nat.ltb_ge in E. rewrite nth_error_app2 by (rewrite firstn_length; lia). rewrite firstn_length, Nat.min_l by lia.
    rewrite nth_skipn. f_equal. lia.
Qed.

Lemma remove_length : forall A i (l : list A), (i < length l)%nat -> length (remove_at i l) = (length l - 1)%nat.
Proof. intros. unfold remove_at. rewrite app_length, firstn_length, skipn_length. lia. Qed.

Definition last_after (last i : Z) : Z := if (i <=? last) && (0 <? last) then last - 1 else last.

Lemma index_delete : forall last i bufs, inv_index KCheck last i bufs -> zlen bufs < 2 ^ 32 -> remove_at (Z.to_nat i) bufs <> [] ->
  inv_index KNext (last_after last i) (to_u 64 (i - 1)) (remove_at (Z.to_nat i) bufs) /\
  next_i (to_u 64 (i - 1)) = i.
Proof.
  intros last i bufs (A1 & A2 & A3) HN NE. unfold zlen in A3.
  assert (L : zlen (remove_at (Z.to_nat i) bufs) = zlen bufs - 1) by (unfold zlen; rewrite remove_length by lia; lia).
  fold (zlen bufs) in A3. destruct A2 as [A2 | (-> & _)]; [|rewrite zlen_nil in A3; lia].
  assert (N1 : 0 < zlen (remove_at (Z.to_nat i) bufs)).
  { destruct (remove_at (Z.to_nat i) bufs); [congruence|]. rewrite zlen_cons. pose proof (zlen_nonneg _ l). lia. }
  rewrite L in N1. unfold inv_index. rewrite L. unfold last_after, to_u, next_i. split.
  - split; [destruct ((i <=? last) && (0 <? last)) eqn:E; lia|]. split; [left; destruct ((i <=? last) && (0 <? last)) eqn:E; lia|].
    split; auto. lia.
  - destruct ((i - 1) mod 2 ^ 64 =? 2 ^ 64 - 1) eqn:E; lia.
Qed.

Lemma cov_delete : forall (Q : buf -> Prop) last i bufs, inv_index KCheck last i bufs -> zlen bufs < 2 ^ 32 -> remove_at (Z.to_nat i) bufs <> [] -> i <> last ->
  cov Q KCheck last i bufs -> cov Q KNext (last_after last i) (to_u 64 (i - 1)) (remove_at (Z.to_nat i) bufs).
Proof.
  intros Q last i bufs A HN NE Hne HC p b Hp Hc. destruct (index_delete _ _ _ A HN NE) as (_ & XN).
  destruct A as (A1 & A2 & A3). unfold covered in Hc. rewrite XN in Hc. unfold zlen in *.
  assert (LP : (p < length bufs - 1)%nat). { rewrite <- (remove_length _ (Z.to_nat i)) by lia. apply nth_error_Some. congruence. }
  rewrite remove_nth in Hp by lia. eapply HC; [exact Hp|]. unfold covered. unfold last_after in Hc.
  destruct (p <? Z.to_nat i)%nat eqn:EP; [apply Nat.ltb_lt in EP|apply Nat.ltb_ge in EP];
    destruct ((i <=? last) && (0 <? last)) eqn:E1; destruct (last <=? i) eqn:E2;
    repeat match goal with H : context [if ?c then _ else _] |- _ => destruct c eqn:? end; lia.
Qed.

(** ** Steps of the compression thread *)

Lemma bufs_small : forall small t, inv small t -> zlen (t_bufs t) < 2 ^ 32.
Proof.
  intros small t H. inv_split H. destruct HId as (_ & _ & A & B). rewrite !zlen_app in B. unfold zlen in *. rewrite !map_length in B. lia.
Qed.

Lemma at_cur : forall k i bufs b, inv_pcs k i bufs -> 0 <= i -> nth_error bufs (Z.to_nat i) = Some b -> cur_pc k (c_pc (r_c (b_ring b))).
Proof. intros k i bufs b H Hi Hb. specialize (H _ _ Hb). rewrite Z2Nat.id in H by auto. now rewrite Z.eqb_refl in H. Qed.

Lemma pcs_update : forall k k' i bufs b b', inv_pcs k i bufs -> 0 <= i -> nth_error bufs (Z.to_nat i) = Some b ->
  cur_pc k' (c_pc (r_c (b_ring b'))) -> inv_pcs k' i (update (Z.to_nat i) b' bufs).
Proof.
  intros k k' i bufs b b' H Hi Hb Hc p x Hp. rewrite update_nth, Hb in Hp. destruct (p =? Z.to_nat i)%nat eqn:E.
  - apply Nat.eqb_eq in E. subst p. apply some_inj in Hp. subst x. rewrite Z2Nat.id, Z.eqb_refl by auto. exact Hc.
  - apply Nat.eqb_neq in E. specialize (H _ _ Hp). destruct (Z.of_nat p =? i) eqn:E2; [lia|exact H].
Qed.

Lemma pcs_move : forall k k' i i' bufs, inv_pcs k i bufs -> (forall pc, cur_pc k pc -> at_rest pc) -> (forall pc, at_rest pc -> cur_pc k' pc) ->
  inv_pcs k' i' bufs.
Proof.
  intros k k' i i' bufs H H1 H2 p b Hp. specialize (H _ _ Hp). destruct (Z.of_nat p =? i); destruct (Z.of_nat p =? i'); auto.
Qed.

Lemma index_update : forall k last i j b bufs, inv_index k last i bufs -> inv_index k last i (update j b bufs).
Proof.
  intros k last i j b bufs H. assert (L : zlen (update j b bufs) = zlen bufs) by (unfold zlen; now rewrite update_length).
  assert (N : update j b bufs = [] <-> bufs = []) by (destruct bufs, j; cbn; split; congruence).
  unfold inv_index in *. rewrite L. destruct H as (A & B & C). splits; auto; [tauto|]. destruct k; auto; tauto.
Qed.

Lemma cov_update : forall (Q Q' : buf -> Prop) k last i j b b' bufs, cov Q k last i bufs -> nth_error bufs j = Some b ->
  (Q b -> Q' b') -> (forall x, Q x -> Q' x) -> cov Q' k last i (update j b' bufs).
Proof.
  intros Q Q' k last i j b b' bufs H Hb HQ HX p x Hp Hc. rewrite update_nth, Hb in Hp. destruct (p =? j)%nat eqn:E.
  - apply Nat.eqb_eq in E. subst p. apply some_inj in Hp. subst x. apply HQ. eapply H; eauto.
  - apply HX. eapply H; eauto.
Qed.

Lemma in_ids_update : forall bufs j b b' (rest : list Z) id, nth_error bufs j = Some b -> b_id b' = b_id b ->
  In id (map b_id bufs ++ rest) -> In id (map b_id (update j b' bufs) ++ rest).
Proof. intros. erewrite map_update; eauto. Qed.

Lemma in_ids_remove : forall bufs j b rest id, nth_error bufs j = Some b ->
  In id (map b_id bufs ++ map b_id rest) -> In id (map b_id (remove_at j bufs) ++ map b_id (rest ++ [b])).
Proof.
  intros bufs j b rest id Hb H. assert (P := remove_perm _ _ _ _ Hb). apply (Permutation_map b_id) in P. rewrite map_app, !in_app_iff in *.
  destruct H as [H | H]; [|tauto]. eapply Permutation_in in H; [|exact P]. destruct H as [<- | H]; [|auto]. right. right. now left.
Qed.

Lemma peek_moves : forall (c : consumer) m c' bs, consumer_step c m = Some (c', bs) -> cur_pc KPeek (c_pc c) -> cur_pc KPeek (c_pc c').
Proof.
  intros c m c' bs E H. unfold consumer_step in E. destruct (c_pc c); try discriminate; try (destruct H; fail).
  - destruct (cached <? c_pos c); [destruct (0 <? _)|]; inversion E; exact I.
  - inversion E; exact I.
Qed.

Definition between (k : kpc) : bool := match k with KTop | KDict | KIo | KWrite | KExit => true | _ => false end.

Lemma scan_between : forall t t', inv_scan t -> (between (t_kpc t) = true \/ t_kpc t = KIdle) -> between (t_kpc t') = true ->
  t_bufs t' = t_bufs t -> t_gone t' = t_gone t -> t_klast t' = t_klast t -> t_ki t' = t_ki t ->
  t_gstart t' = t_gstart t -> t_gseen t' = t_gseen t -> inv_scan t'.
Proof.
  intros t t' (A & B & C & D & F & G) H H' E1 E2 E3 E4 E5 E6. unfold inv_scan, looked in *. rewrite E1, E2, E3, E4, E5, E6.
  assert (R : forall pc, cur_pc (t_kpc t) pc -> at_rest pc) by (destruct H as [H | H]; [|rewrite H; auto]; destruct (t_kpc t); try discriminate H; auto).
  destruct (t_kpc t') eqn:E; try discriminate H'; (splits; auto;
    [destruct A as (A1 & A2 & _); unfold inv_index; splits; auto
    |intros p b Hp; specialize (B p b Hp); destruct (Z.of_nat p =? t_ki t); cbn; auto
    |intros [X | X]; discriminate X
    |intros _ _ p b _ []]).
Qed.

Lemma notify_keeps : forall t, t_bufs (notify t) = t_bufs t /\ t_gone (notify t) = t_gone t /\ t_klast (notify t) = t_klast t /\ t_ki (notify t) = t_ki t /\
  t_gstart (notify t) = t_gstart t /\ t_gseen (notify t) = t_gseen t /\ t_kpc (notify t) = t_kpc t /\ t_kfull (notify t) = t_kfull t /\ t_skip (notify t) = t_skip t.
Proof. intros t. unfold notify. destruct (t_waiters t) as [|w ws]; [splits; auto|]. destruct (w_switch w); splits; reflexivity. Qed.

Lemma finish_scan : forall t, inv_scan t -> t_kpc t = KIo -> inv_scan (k_finish_io t).
Proof.
  intros t H EP. unfold k_finish_io. cbv zeta.
  pose proof (notify_keeps (set_sync SYNC_COMPLETED (set_outst false (set_kpc KWrite t)))) as (N1 & N2 & N3 & N4 & N5 & N6 & N7 & _).
  destruct (t_sync t); (eapply scan_between; [exact H|rt_cbn; rewrite ?EP; auto..]); rewrite ?N1, ?N2, ?N3, ?N4, ?N5, ?N6, ?N7; reflexivity.
Qed.

Lemma stale_scan : forall small t, inv small t -> inv_scan t -> t_kpc t = KDict -> inv_scan (k_stale t).
Proof.
  intros small t HI H EP. destruct H as (A & B & C & D & F & G). rewrite EP in *. unfold k_stale, inv_scan, looked in *. rt_cbn. splits.
  - destruct A as (A1 & A2 & _). unfold inv_index. splits; auto.
  - eapply pcs_move; eauto.
  - intros id Hi. apply in_or_app. now left.
  - intros [X | X]; discriminate X.
  - apply Forall_forall. intros b Hb. right. intro Y. inv_split HI. destruct HId as (I1 & _).
    eapply NoDup_not_right; [exact I1|exact Y|]. apply in_or_app. left. now apply in_map.
  - intros _ _ p b _ X. unfold covered in X. rewrite Z.leb_refl in X. lia.
Qed.

Lemma thread_scan : forall small t t', inv small t -> inv_scan t -> k_step t = Some t' -> inv_scan t'.
Proof.
  intros small t t' HI H E. assert (HN := bufs_small _ _ HI). pose proof H as (A & B & C & D & F & G).
  unfold k_step in E. cbv zeta in E. destruct (t_kpc t) eqn:EP.
  - (* KTop *)
    apply some_inj in E. subst t'. unfold inv_scan, looked in *. rt_cbn.
    destruct (negb (t_kexit t) || (0 <? encoded t) || t_outst t);
      (splits; auto; try exact A; try (eapply pcs_move; eauto; fail); try (intros [X | X]; discriminate X); try (intros _ _ p b _ [])).
  - (* KDict *)
    apply some_inj in E. subst t'.
    pose proof (stale_scan _ _ HI H EP) as X. unfold k_stale in X.
    unfold k_dict. cbv zeta. destruct (t_nextp t <? zlen (t_sites t)); [|exact X].
    destruct (encodeNewDictionaryEntries _ _ _) as [[e n] r]. eapply scan_keep; [exact X|rt_cbn; try reflexivity..]. apply keep_refl.
  - (* KScan *)
    destruct (t_kfull t) eqn:EF.
    { apply some_inj in E. subst t'. unfold inv_scan, looked in *. rt_cbn. splits; auto.
      - destruct A as (A1 & A2 & _). unfold inv_index. splits; auto.
      - intros [X | X]; discriminate X.
      - congruence. }
    destruct (t_bufs t) as [|b0 bs] eqn:EB.
    { apply some_inj in E. subst t'. unfold inv_scan, looked in *. rt_cbn. rewrite EB in *. splits; auto.
      - destruct A as (A1 & A2 & _). unfold inv_index. splits; auto.
      - intros [X | X]; discriminate X.
      - intros _ _ p b Hp. destruct p; discriminate. }
    rewrite <- EB in *. destruct (on_ring (Z.to_nat (t_ki t)) LPeek t) as [t1|] eqn:ER; [|discriminate]. apply some_inj in E. subst t'.
    unfold on_ring in ER. destruct (nth_error (t_bufs t) (Z.to_nat (t_ki t))) as [b|] eqn:EBk; [|discriminate].
    destruct (ring_step _ _ _) as [r|] eqn:ES; [|discriminate]. apply some_inj in ER. subst t1.
    assert (R : 0 <= t_ki t < zlen (t_bufs t)). { destruct A as (_ & _ & A3 & [A4 | (A4 & _)]); [lia|congruence]. }
    assert (RP : cur_pc KPeek (c_pc (r_c r))).
    { unfold ring_step in ES. cbv zeta in ES. destruct (c_pc (r_c (b_ring b))); try discriminate; apply some_inj in ES; subst r; exact I. }
    unfold inv_scan, looked in *. rt_cbn. splits; auto.
    + apply index_update. destruct A as (A1 & A2 & _). unfold inv_index. splits; auto; lia.
    + eapply pcs_update; eauto. lia.
    + intros id Hi. eapply in_ids_update; eauto.
    + intros [X | X]; discriminate X.
    + intros S1 S2. eapply cov_update; [apply G; auto|exact EBk|auto|auto].
  - (* KPeek *)
    assert (R : 0 <= t_ki t < zlen (t_bufs t)) by (destruct A as (_ & _ & A3); exact A3).
    destruct (nth_error (t_bufs t) (Z.to_nat (t_ki t))) as [b|] eqn:EBk; [|discriminate].
    assert (HC := at_cur _ _ _ _ B (proj1 R) EBk).
    assert (LC : on_ring (Z.to_nat (t_ki t)) LConsumer t = Some t' -> inv_scan t').
    { intro X. unfold on_ring in X. rewrite EBk in X. destruct (ring_step _ _ _) as [r|] eqn:ES; [|discriminate]. apply some_inj in X. subst t'.
      assert (RP : cur_pc KPeek (c_pc (r_c r))).
      { unfold ring_step in ES. cbv zeta in ES. destruct (consumer_step _ _) as [[c' x]|] eqn:EC; [|discriminate]. apply some_inj in ES. subst r.
        eapply peek_moves; eauto. }
      unfold inv_scan, looked in *. rt_cbn. rewrite EP. splits; auto.
      + now apply index_update.
      + eapply pcs_update; eauto. lia.
      + intros id Hi. eapply in_ids_update; eauto.
      + intros [X | X]; discriminate X.
      + intros S1 S2. eapply cov_update; [apply G; auto|exact EBk|auto|auto]. }
    destruct (c_pc (r_c (b_ring b))) eqn:EC; try (exact (LC E)); try discriminate E. clear LC.
    assert (F' : forall x, looked t x -> In (b_id x) (t_gseen t ++ [b_id b]) \/ ~ In (b_id x) (t_gstart t)).
    { intros x [Y | Y]; [left; apply in_or_app; now left|now right]. }
    assert (LB : In (b_id b) (t_gseen t ++ [b_id b])) by (apply in_or_app; right; now left).
    destruct (0 <? n).
    + apply some_inj in E. subst t'. unfold inv_scan, looked in *. rt_cbn. splits; auto.
      * intros p x Hp. specialize (B _ _ Hp). destruct (Z.of_nat p =? t_ki t) eqn:E2; [|exact B].
        apply Z.eqb_eq in E2. replace p with (Z.to_nat (t_ki t)) in Hp by lia. assert (x = b) as -> by congruence. rewrite EC. exact I.
      * intros _ b' Hb'. left. assert (b' = b) as -> by congruence. exact LB.
      * eapply Forall_impl; [|exact F]. auto.
      * intros S1 S2 p x Hp Hc. apply F'. eapply G; eauto.
    + destruct (on_ring _ LCheck _) as [t1|] eqn:ER; [|discriminate]. apply some_inj in E. subst t'.
      unfold on_ring in ER. rt_cbn_in ER. rewrite EBk in ER. destruct (ring_step _ _ _) as [r|] eqn:ES; [|discriminate]. apply some_inj in ER. subst t1.
      assert (RP : c_pc (r_c r) = if s_dead (r_mem (b_ring b)) then CCheck else CIdle).
      { unfold ring_step in ES. cbv zeta in ES. rewrite EC in ES. destruct (n =? 0); [|discriminate]. apply some_inj in ES. now subst r. }
      assert (IX : inv_index (if s_dead (r_mem (b_ring b)) then KCheck else KNext) (t_klast t) (t_ki t) (t_bufs t)).
      { destruct (s_dead _); [exact A|]. eapply index_pass; [|exact A]. auto. }
      unfold inv_scan, looked in *. rt_cbn. splits; auto.
      * apply index_update. exact IX.
      * eapply pcs_update; eauto; [lia|]. cbn [b_ring]. rewrite RP. now destruct (s_dead _).
      * intros id Hi. eapply in_ids_update; eauto.
      * intros _ b' Hb'. left. rewrite update_nth, EBk, Nat.eqb_refl in Hb'. apply some_inj in Hb'. subst b'. exact LB.
      * eapply Forall_impl; [|exact F]. auto.
      * intros S1 S2.
        apply cov_update with (Q := fun x => In (b_id x) (t_gseen t ++ [b_id b]) \/ ~ In (b_id x) (t_gstart t)) (b := b); auto.
        assert (GG : cov (fun x => In (b_id x) (t_gseen t ++ [b_id b]) \/ ~ In (b_id x) (t_gstart t)) KPeek (t_klast t) (t_ki t) (t_bufs t)).
        { intros p x Hp Hc. apply F'. eapply G; eauto. }
        destruct (s_dead _); [exact GG|]. eapply cov_pass; [|exact A|exact HN|exact EBk|left; exact LB|exact GG]. auto.
  - (* KEnc *)
    assert (R : 0 <= t_ki t < zlen (t_bufs t)) by (destruct A as (_ & _ & A3); exact A3).
    destruct (nth_error (t_bufs t) (Z.to_nat (t_ki t))) as [b|] eqn:EBk; [|discriminate].
    assert (HC := at_cur _ _ _ _ B (proj1 R) EBk).
    destruct (c_pc (r_c (b_ring b))) eqn:EC; try discriminate E.
    assert (LB := D (or_introl eq_refl) b eq_refl).
    assert (PN : inv_pcs KNext (t_ki t) (t_bufs t)).
    { eapply pcs_move; [exact B| |]; intros pc; destruct pc; cbn; auto. }
    assert (IX : inv_index KNext (t_klast t) (t_ki t) (t_bufs t)) by (eapply index_pass; [|exact A]; auto).
    destruct (n =? 0) eqn:E0.
    { apply some_inj in E. subst t'. unfold inv_scan, looked in *. rt_cbn. splits; auto.
      - intros [X | X]; discriminate X.
      - intros S1 S2. eapply cov_pass; [|exact A|exact HN|exact EBk|exact LB|apply G; auto]. auto. }
    unfold k_encode in E. destruct (encodeLogMsgs _ _ _ _ _ _ _) as [[e read] cnt] eqn:EE. destruct (read =? 0) eqn:ER0.
    { apply some_inj in E. subst t'. unfold inv_scan, looked in *. rt_cbn. splits; auto.
      - destruct IX as (I1 & I2 & I3 & I4). unfold inv_index. splits; auto; lia.
      - intros [X | X]; discriminate X.
      - intros _ X. discriminate X. }
    destruct (ring_run _ _ _) as [r|] eqn:ER; [|discriminate]. apply some_inj in E. subst t'.
    assert (RP : exists n', c_pc (r_c r) = CHave n').
    { inv_split HI. destruct HBu as (HBu & _). assert (HO : buf_ok small (t_sites t) b) by (eapply Forall_forall; [exact HBu|eapply nth_error_In; eauto]).
      assert (HI0 : 0 <= b_id b < 2 ^ 32).
      { destruct HId as (_ & X & Y & _). eapply Forall_forall in X; [|apply in_or_app; left; apply in_map; eapply nth_error_In; eauto]. cbv beta in X. lia. }
      assert (n0 : 0 < n).
      { destruct (handed_messages _ _ _ _ HO EC) as (j & _ & X). cbv zeta in X. destruct X as (_ & X & _).
        pose proof (zlen_nonneg _ (concat (firstn (j - b_taken b) (skipn (b_taken b) (r_sent (b_ring b)))))). lia. }
      destruct HKn as (_ & _ & _ & _ & K5). rewrite K5 in EE.
      destruct (buf_encode small (t_sites t) (Z.to_nat (t_nextp t)) b n (t_en t) (t_kwrap t) e read cnt HO EC n0 (proj1 HEn) HI0 EE)
        as (R1 & R2 & R3 & R4 & R5). destruct R4 as (r' & R4 & _ & _ & _ & _ & R6); [lia|]. rewrite R4 in ER. apply some_inj in ER. subst r'. eauto. }
    destruct RP as (n' & RP).
    unfold inv_scan, looked in *. rt_cbn. rewrite EP. splits; auto.
    + now apply index_update.
    + eapply pcs_update; eauto; [lia|]. cbn [b_ring]. rewrite RP. exact I.
    + intros id Hi. eapply in_ids_update; eauto.
    + intros _ b' Hb'. rewrite update_nth, EBk, Nat.eqb_refl in Hb'. apply some_inj in Hb'. subst b'. exact LB.
    + intros S1 S2. eapply cov_update; [apply G; auto|exact EBk|auto|auto].
  - (* KCheck *)
    assert (R : 0 <= t_ki t < zlen (t_bufs t)) by (destruct A as (_ & _ & A3); exact A3).
    destruct (nth_error (t_bufs t) (Z.to_nat (t_ki t))) as [b|] eqn:EBk; [|discriminate].
    assert (HC := at_cur _ _ _ _ B (proj1 R) EBk).
    destruct (c_pc (r_c (b_ring b))) eqn:EC; try discriminate E.
    assert (LB := D (or_intror eq_refl) b eq_refl).
    destruct (on_ring _ LConsumer _) as [t1|] eqn:ER; [|discriminate].
    unfold on_ring in ER. rewrite EBk in ER. destruct (ring_step _ _ _) as [r|] eqn:ES; [|discriminate]. apply some_inj in ER. subst t1.
    rt_cbn_in E. rewrite update_nth, EBk, Nat.eqb_refl in E. cbn [b_ring] in E.
    assert (RP : c_pc (r_c r) = CDeleted \/ c_pc (r_c r) = CIdle).
    { unfold ring_step in ES. cbv zeta in ES. unfold consumer_step in ES. rewrite EC in ES. apply some_inj in ES. subst r. cbn [r_c c_pc].
      destruct (c_pos _ =? _); auto. }
    set (b' := Buf (b_id b) r (b_msgs b) (b_taken b)) in *.
    destruct RP as [RP | RP]; rewrite RP in E; apply some_inj in E; subst t'.
    + assert (EBk' : nth_error (update (Z.to_nat (t_ki t)) b' (t_bufs t)) (Z.to_nat (t_ki t)) = Some b') by (rewrite update_nth, EBk, Nat.eqb_refl; auto).
      assert (A' := index_update _ _ _ (Z.to_nat (t_ki t)) b' _ A).
      assert (HN' : zlen (update (Z.to_nat (t_ki t)) b' (t_bufs t)) < 2 ^ 32) by (unfold zlen in *; now rewrite update_length).
      assert (C' : forall id, In id (t_gstart t) -> In id (map b_id (update (Z.to_nat (t_ki t)) b' (t_bufs t)) ++ map b_id (t_gone t))).
      { intros id Hi. eapply in_ids_update; eauto. }
      assert (G' : t_skip t = false -> t_kfull t = false -> cov (looked t) KCheck (t_klast t) (t_ki t) (update (Z.to_nat (t_ki t)) b' (t_bufs t))).
      { intros S1 S2. eapply cov_update; [apply G; auto|exact EBk|auto|auto]. }
      assert (B' : forall p x, nth_error (update (Z.to_nat (t_ki t)) b' (t_bufs t)) p = Some x -> p <> Z.to_nat (t_ki t) -> at_rest (c_pc (r_c (b_ring x)))).
      { intros p x Hp Hne. rewrite update_nth in Hp. destruct (p =? Z.to_nat (t_ki t))%nat eqn:E2; [apply Nat.eqb_eq in E2; congruence|].
        specialize (B _ _ Hp). destruct (Z.of_nat p =? t_ki t) eqn:E3; [lia|exact B]. }
      unfold k_delete. cbv zeta. rt_cbn. set (bs := update (Z.to_nat (t_ki t)) b' (t_bufs t)) in *. clearbody bs.
      assert (BR : forall k i, (forall pc, at_rest pc -> cur_pc k pc) -> inv_pcs k i (remove_at (Z.to_nat (t_ki t)) bs)).
      { intros k i Hk p x Hp. assert (L : (Z.to_nat (t_ki t) < length bs)%nat) by (apply nth_error_Some; congruence).
        rewrite remove_nth in Hp by auto.
        assert (X : at_rest (c_pc (r_c (b_ring x)))). { apply (B' _ _ Hp). destruct (p <? Z.to_nat (t_ki t))%nat eqn:E2; [apply Nat.ltb_lt in E2|apply Nat.ltb_ge in E2]; lia. }
        destruct (Z.of_nat p =? i); auto. }
      assert (FG : Forall (looked t) (t_gone t ++ [b'])) by (apply Forall_app; split; [exact F|constructor; [exact LB|constructor]]).
      destruct (remove_at (Z.to_nat (t_ki t)) bs) as [|y ys] eqn:ERM; unfold inv_scan, looked in *; rt_cbn; rewrite ?ERM.
      * splits.
        -- unfold inv_index. splits; auto; try lia.
        -- apply BR. auto.
        -- intros id Hi. pose proof (in_ids_remove _ _ _ (t_gone t) _ EBk' (C' _ Hi)) as X. rewrite ERM in X. exact X.
        -- intros [X | X]; discriminate X.
        -- exact FG.
        -- intros _ _ p x Hp. destruct p; discriminate.
      * assert (NE : remove_at (Z.to_nat (t_ki t)) bs <> []) by (rewrite ERM; discriminate). rewrite <- ERM in *.
        splits.
        -- exact (proj1 (index_delete _ _ _ A' HN' NE)).
        -- apply BR. auto.
        -- intros id Hi. eapply in_ids_remove; eauto.
        -- intros [X | X]; discriminate X.
        -- exact FG.
        -- intros S1 S2. apply orb_false_elim in S1. destruct S1 as (S0 & S1). apply Z.eqb_neq in S1.
           exact (cov_delete _ _ _ _ A' HN' NE S1 (G' S0 S2)).
    + unfold inv_scan, looked in *. rt_cbn. splits; auto.
      * apply index_update. eapply index_pass; [|exact A]. auto.
      * eapply pcs_update; eauto; [lia|]. cbn [b_ring]. unfold b'. cbn [b_ring]. rewrite RP. exact I.
      * intros id Hi. eapply in_ids_update; eauto.
      * intros [X | X]; discriminate X.
      * intros S1 S2. apply cov_update with (Q := looked t) (b := b); [|exact EBk|auto|auto]. apply cov_pass with (k := KCheck) (b := b); auto.
  - (* KNext *)
    apply some_inj in E. subst t'. unfold k_next. cbv zeta.
    assert (X : forall Q, cov Q KNext (t_klast t) (t_ki t) (t_bufs t) -> let i' := to_u 64 (t_ki t + 1) mod zlen (t_bufs t) in
      cov Q (if i' =? t_klast t then KIdle else KScan) (t_klast t) i' (t_bufs t)) by (intros Q Y; exact (proj1 (cov_next Q _ _ _ A HN Y))).
    assert (IX := proj1 (proj2 (cov_next (fun _ => True) _ _ _ A HN (fun _ _ _ _ => I)))). cbv zeta in *.
    unfold inv_scan, looked in *. rt_cbn. set (i' := to_u 64 (t_ki t + 1) mod zlen (t_bufs t)) in *. splits.
    + exact IX.
    + eapply pcs_move; [exact B|auto|]. destruct (i' =? t_klast t); auto.
    + exact C.
    + intros [Y | Y]; destruct (i' =? t_klast t); discriminate Y.
    + exact F.
    + intros S1 S2. apply X. auto.
  - (* KIdle *)
    apply some_inj in E. subst t'.
    unfold k_idle. destruct (encoded t =? 0); [|eapply scan_between; [exact H|rt_cbn; auto..]].
    destruct (t_sync t); try destruct (t_outst t);
      try (pose proof (notify_keeps (set_sync SYNC_COMPLETED (set_kpc KIo t))) as (N1 & N2 & N3 & N4 & N5 & N6 & N7 & _));
      try (pose proof (notify_keeps (set_kpc KIo t)) as (M1 & M2 & M3 & M4 & M5 & M6 & M7 & _));
      (eapply scan_between; [exact H|rt_cbn; auto..]); rewrite ?N1, ?N2, ?N3, ?N4, ?N5, ?N6, ?N7, ?M1, ?M2, ?M3, ?M4, ?M5, ?M6, ?M7; reflexivity.
  - (* KIo *)
    unfold k_io in E. destruct (t_outst t); [destruct (t_flight t); [|destruct (t_kfull t); [discriminate|]]|]; apply some_inj in E; subst t'.
    + eapply finish_scan; eauto.
    + eapply scan_between; [exact H|rt_cbn; rewrite ?EP; auto..].
    + eapply scan_between; [exact H|rt_cbn; rewrite ?EP; auto..].
  - (* KWrite *)
    apply some_inj in E. subst t'. unfold k_write. cbv zeta. destruct (encoded t =? 0); [eapply scan_between; [exact H|rt_cbn; rewrite ?EP; auto..]|].
    destruct (swapBuffer _ _ _) as [e' o]. eapply scan_between; [exact H|rt_cbn; rewrite ?EP; auto..].
  - discriminate.
Qed.

(** ** Every step *)

Lemma step_scan : forall small l t t', inv small t -> inv_scan t -> rt_step l t = Some t' -> inv_scan t'.
Proof.
  intros small l t t' HI H E. destruct l; cbn [rt_step] in E.
  - apply some_inj in E. subst t'. eapply scan_keep; [exact H|rt_cbn; auto using keep_refl..].
  - apply some_inj in E. subst t'. eapply scan_keep; [exact H|rt_cbn; auto using keep_refl..].
  - eapply push_scan; eauto.
  - destruct (nth_error (t_sites t) _) as [s|]; [|discriminate]. destruct (nth_error (t_bufs t) j) as [b|] eqn:EB; [|discriminate].
    destruct (ring_step _ _ _) as [r|] eqn:ER; [|discriminate]. apply some_inj in E. subst t'.
    eapply scan_keep; [exact H|rt_cbn..]; try reflexivity. eapply keep_update; eauto. split; auto. cbn [b_ring]. eapply outside_pc; eauto. reflexivity.
  - eapply on_ring_scan; eauto. reflexivity.
  - eapply on_ring_scan; eauto. reflexivity.
  - eapply on_ring_scan; eauto. reflexivity.
  - eapply on_ring_scan; eauto. reflexivity.
  - eapply thread_scan; eauto.
  - destruct (nth_error (t_flight t) k) as [[base n]|]; [|discriminate]. apply some_inj in E. subst t'.
    eapply scan_keep; [exact H|rt_cbn; auto using keep_refl..].
  - destruct (t_kpc t) eqn:EP; try discriminate. destruct (t_flight t); [discriminate|]. destruct (t_outst t && t_kfull t); [|discriminate].
    apply some_inj in E. subst t'. eapply finish_scan; eauto.
  - destruct (snap_ok t snap); [|discriminate]. apply some_inj in E. subst t'. eapply scan_keep; [exact H|rt_cbn; auto using keep_refl..].
  - destruct (t_waiters t); [discriminate|]. apply some_inj in E. subst t'. eapply scan_keep; [exact H|rt_cbn; auto using keep_refl..].
  - destruct (t_waiters t); [discriminate|]. apply some_inj in E. subst t'.
    pose proof (notify_keeps t) as (N1 & N2 & N3 & N4 & N5 & N6 & N7 & N8 & N9).
    eapply scan_keep; [exact H|..]; auto. rewrite N1. apply keep_refl.
  - destruct (t_sw t); try discriminate. destruct (snap_ok t snap); [|discriminate]. apply some_inj in E. subst t'.
    eapply scan_keep; [exact H|rt_cbn; auto using keep_refl..].
  - destruct (t_sw t); try discriminate. apply some_inj in E. subst t'. eapply scan_keep; [exact H|rt_cbn; auto using keep_refl..].
  - destruct (t_sw t); try discriminate. destruct (t_kpc t) eqn:EP; try discriminate. destruct (encoder _ _ _ _ _ _ _) as [e|]; [|discriminate].
    apply some_inj in E. subst t'. destruct H as (A & B & C & D & F & G). rewrite EP in *. unfold inv_scan, looked in *. rt_cbn. splits; auto.
    + destruct A as (A1 & A2 & _). unfold inv_index. splits; auto; try lia. destruct (t_bufs t) as [|b bs]; [auto|left]. rewrite zlen_cons. pose proof (zlen_nonneg _ bs). lia.
    + intros p b Hp. specialize (B p b Hp). cbn [cur_pc] in *. destruct (Z.of_nat p =? t_ki t), (Z.of_nat p =? 0); auto.
    + intros [X | X]; discriminate X.
    + intros _ _ p b _ [].
  - destruct (t_kpc t) eqn:EP; try discriminate. apply some_inj in E. subst t'. eapply stale_scan; eauto.
Qed.

Lemma init_scan : forall m size b1 b2 rdtsc unixTime cps t, rt_init m size b1 b2 rdtsc unixTime cps = Some t -> inv_scan t.
Proof.
  intros m size b1 b2 rdtsc unixTime cps t E. unfold rt_init in E. destruct (encoder _ _ _ _ _ _ _) as [e|]; [|discriminate].
  apply some_inj in E. subst t. unfold inv_scan, looked. cbn. splits; auto.
  - unfold inv_index. splits; auto; lia.
  - intros p b Hp. destruct p; discriminate.
  - intros _ _ p b Hp. destruct p; discriminate.
Qed.
