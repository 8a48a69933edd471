(** A staging buffer of the running system, with the messages logged to it. *)
From Verif Require Import Base BaseProofs FrontFmt Args ArgsProofs DecodeProofs Encoder Wire EncoderProofs Prop_Encoder FileSpec
  Ring RingProofs Prop_Ring Runtime RtRing.

Ltac Zify.zify_post_hook ::= Z.div_mod_to_equations.

Notation SBS := STAGING_BUFFER_SIZE.

Lemma SBS_range : 1 <= SBS < 2 ^ 63.
Proof. unfold STAGING_BUFFER_SIZE. lia. Qed.

Definition all_sent (r : ring) : list (list Z) := r_sent r ++ unfinished (p_pc (r_p r)).

(** With [small], every message is smaller than half the staging buffer. *)
Definition buf_ok (small : Prop) (sites : list site) (b : buf) : Prop :=
  ring_inv SBS (b_ring b) /\ ring_bytes (b_ring b) /\ staged_all sites (b_msgs b) (all_sent (b_ring b)) /\
  r_got (b_ring b) = concat (firstn (b_taken b) (r_sent (b_ring b))) /\ (b_taken b <= length (r_sent (b_ring b)))%nat /\
  (small -> Forall (fun bs => zlen bs < SBS / 2) (all_sent (b_ring b))).

Lemma nth_error_more : forall A (l x : list A) n a, nth_error l n = Some a -> nth_error (l ++ x) n = Some a.
Proof. intros. rewrite nth_error_app1; auto. apply nth_error_Some. congruence. Qed.

Lemma staged_more : forall sites x ms bs, staged_all sites ms bs -> staged_all (sites ++ x) ms bs.
Proof.
  intros sites x ms bs H. induction H as [|m b ms bs (s & A & B) _ IH]; constructor; auto. exists s. split; auto using nth_error_more.
Qed.

Lemma compressed_more : forall sites x ms ws, compressed_all sites ms ws -> compressed_all (sites ++ x) ms ws.
Proof.
  intros sites x. induction ms as [|m ms IH]; intros [|w ws] H; cbn [compressed_all] in *; auto.
  destruct H as ((s & A & B) & C). split; auto. exists s. split; auto using nth_error_more.
Qed.

Lemma buf_sites : forall small sites x b, buf_ok small sites b -> buf_ok small (sites ++ x) b.
Proof. intros small sites x b (A & B & C & D). unfold buf_ok. splits; try tauto. now apply staged_more. Qed.

Lemma buf_new : forall small sites id, buf_ok small sites (Buf id (new_ring SBS) [] 0).
Proof.
  intros. unfold buf_ok. cbn [b_ring b_msgs b_taken]. splits.
  - apply new_ring_inv. exact SBS_range.
  - unfold ring_bytes. cbn. splits; constructor; unfold is_byte; lia.
  - constructor.
  - reflexivity.
  - cbn. lia.
  - intros _. constructor.
Qed.

Lemma step_all_sent : forall l r r', ring_step SBS l r = Some r' ->
  all_sent r' = all_sent r ++ logged [l].
Proof.
  intros. assert (E : ring_run SBS [l] r = Some r') by (cbn [ring_run]; now rewrite H).
  apply run_logged in E. unfold all_sent. rewrite <- E. now rewrite app_assoc.
Qed.

Lemma firstn_prefix : forall A n (l x : list A), (n <= length l)%nat -> firstn n (l ++ x) = firstn n l.
Proof. intros. rewrite firstn_app. replace (n - length l)%nat with 0%nat by lia. cbn [firstn]. apply app_nil_r. Qed.

Lemma buf_step : forall small sites id r ms k l r', buf_ok small sites (Buf id r ms k) -> ring_step SBS l r = Some r' ->
  logged [l] = [] -> reads l r = false -> buf_ok small sites (Buf id r' ms k).
Proof.
  intros small sites id r ms k l r' (A & B & C & D & E & F) HS HL HR. unfold buf_ok. cbn [b_ring b_msgs b_taken] in *.
  assert (EA := step_all_sent _ _ _ HS). rewrite HL, app_nil_r in EA.
  destruct (step_sent _ _ _ _ HS) as (x & E1 & E2). specialize (E2 HR).
  splits.
  - eapply step_inv; eauto. exact SBS_range.
  - eapply ring_bytes_step; eauto. destruct l; try exact I. discriminate HL.
  - now rewrite EA.
  - rewrite E1, E2, firstn_prefix by lia. exact D.
  - rewrite E1, app_length. lia.
  - rewrite EA. exact F.
Qed.

Lemma buf_log : forall (small : Prop) sites id r ms k s x r', buf_ok small sites (Buf id r ms k) ->
  nth_error sites (Z.to_nat (sm_id x)) = Some s -> staged_ok s x -> (small -> zlen (staged_bytes s x) < SBS / 2) ->
  ring_step SBS (LLog (staged_bytes s x)) r = Some r' -> buf_ok small sites (Buf id r' (ms ++ [x]) k).
Proof.
  intros small sites id r ms k s x r' (A & B & C & D & E & F) Hs Hok Hsm HS. unfold buf_ok. cbn [b_ring b_msgs b_taken] in *.
  assert (EA := step_all_sent _ _ _ HS). cbn [logged] in EA.
  destruct (step_sent _ _ _ _ HS) as (y & E1 & E2). specialize (E2 eq_refl).
  splits.
  - eapply step_inv; eauto. exact SBS_range.
  - eapply ring_bytes_step; eauto. exact (staged_is_bytes s x Hok).
  - rewrite EA. apply Forall2_app; auto. constructor; [|constructor]. exists s. auto.
  - rewrite E1, E2, firstn_prefix by lia. exact D.
  - rewrite E1, app_length. lia.
  - intros H. rewrite EA. apply Forall_app. split; auto.
Qed.

(** ** Whole messages *)

Lemma staged_nonempty : forall sites ms bs, staged_all sites ms bs -> Forall (fun b => 0 < zlen b) bs.
Proof.
  intros sites ms bs H. induction H as [|m b ms bs (s & A & B & ->) _ IH]; constructor; auto.
  rewrite staged_zlen. pose proof (zlen_nonneg _ (imgs (si_params s) (sm_ns m) (sm_args m))). lia.
Qed.

Lemma concat_mono : forall (l : list (list Z)) a b, Forall (fun x => 0 < zlen x) l -> (b <= length l)%nat ->
  zlen (concat (firstn b l)) <= zlen (concat (firstn a l)) -> (b <= a)%nat.
Proof.
  induction l as [|x l IH]; intros a b H Hb HZ; [cbn in Hb; lia|]. inversion H; subst.
  destruct b as [|b]; [lia|]. destruct a as [|a].
  - cbn [firstn concat] in HZ. rewrite zlen_app, zlen_nil in HZ. pose proof (zlen_nonneg _ (concat (firstn b l))). lia.
  - cbn [firstn concat] in HZ. rewrite !zlen_app in HZ. cbn [length] in Hb. apply le_n_S. apply IH; auto; lia.
Qed.

(** The messages behind the consumed ones. *)
Lemma whole_messages : forall (sent : list (list Z)) k x, Forall (fun b => 0 < zlen b) sent -> (k <= length sent)%nat ->
  bnd sent (concat (firstn k sent) ++ x) ->
  exists j, (k <= j <= length sent)%nat /\ x = concat (firstn (j - k) (skipn k sent)).
Proof.
  intros sent k x Hp Hk (j & E). set (j' := Nat.min j (length sent)).
  assert (Ej : firstn j sent = firstn j' sent).
  { subst j'. destruct (Nat.le_gt_cases j (length sent)); [now rewrite Nat.min_l|].
    rewrite Nat.min_r by lia. now rewrite !firstn_all2 by lia. }
  rewrite Ej in E. assert (Hj : (k <= j')%nat).
  { apply (concat_mono sent); auto. rewrite <- E, zlen_app. pose proof (zlen_nonneg _ x). lia. }
  exists j'. split; [lia|]. replace j' with (k + (j' - k))%nat in E at 1 by lia.
  rewrite firstn_plus, concat_app in E. now apply app_inv_head in E.
Qed.

Lemma Forall2_skipn : forall A B (R : A -> B -> Prop) n l l', Forall2 R l l' -> Forall2 R (skipn n l) (skipn n l').
Proof. induction n; intros l l' H; [auto|]. destruct H; cbn; auto. Qed.

Lemma Forall2_firstn_n : forall A B (R : A -> B -> Prop) n l l', Forall2 R l l' -> Forall2 R (firstn n l) (firstn n l').
Proof. induction n; intros l l' H; [constructor|]. destruct H; cbn; constructor; auto. Qed.

Lemma firstn_skipn_prefix : forall A a n (l x : list A), (a + n <= length l)%nat -> firstn n (skipn a (l ++ x)) = firstn n (skipn a l).
Proof.
  intros. rewrite skipn_app, firstn_app, skipn_length.
  replace (n - (length l - a))%nat with 0%nat by lia. cbn [firstn]. apply app_nil_r.
Qed.

Lemma firstn_firstn_le : forall A a b (l : list A), (a <= b)%nat -> firstn a (firstn b l) = firstn a l.
Proof. intros. rewrite firstn_firstn. now rewrite Nat.min_l by lia. Qed.

(** What peek returned is [ms], staged as [bs]. *)
Lemma handed_messages : forall small sites b n, buf_ok small sites b -> c_pc (r_c (b_ring b)) = CHave n ->
  let m := s_data (r_mem (b_ring b)) in let c := c_pos (r_c (b_ring b)) in
  exists j, (b_taken b <= j <= length (r_sent (b_ring b)))%nat /\
    let ms := firstn (j - b_taken b) (skipn (b_taken b) (b_msgs b)) in
    let bs := firstn (j - b_taken b) (skipn (b_taken b) (r_sent (b_ring b))) in
    staged_at sites m c ms bs /\ zlen (concat bs) = n /\ (j - b_taken b)%nat = length bs /\
    (small -> Forall (fun x => zlen x < SBS / 2) bs).
Proof.
  intros small sites b n (A & B & C & D & E & F) HC m c.
  assert (HK := A). destruct HK as (_ & f & _ & _ & _ & _ & _ & HK). rewrite HC in HK. cbn [cinv] in HK.
  destruct HK as (K1 & K2 & K3). rewrite D in K3.
  assert (NE := staged_nonempty _ _ _ C). unfold all_sent in NE. apply Forall_app in NE. destruct NE as [NE _].
  destruct (whole_messages _ _ _ NE E K3) as (j & Hj & HL). exists j. split; [exact Hj|].
  intros ms bs. fold bs in HL.
  assert (LB : length bs = (j - b_taken b)%nat).
  { subst bs. rewrite firstn_length, skipn_length. lia. }
  assert (ZN : zlen (concat bs) = n).
  { rewrite <- HL. unfold ld, zlen. rewrite load_length. lia. }
  splits; auto.
  - split.
    + subst ms bs. unfold staged_all in C |- *.
      apply (Forall2_skipn _ _ _ (b_taken b)) in C. apply (Forall2_firstn_n _ _ _ (j - b_taken b)) in C.
      unfold all_sent in C. rewrite firstn_skipn_prefix in C by lia. exact C.
    + rewrite <- HL. unfold ld. rewrite load_length. reflexivity.
  - intros H. specialize (F H). unfold all_sent in F. apply Forall_app in F. destruct F as [F _].
    subst bs. apply Forall_firstn_in. rewrite <- (firstn_skipn (b_taken b) (r_sent (b_ring b))) in F. now apply Forall_app in F.
Qed.

(** Encoding a chunk of what peek returned. *)
Lemma buf_encode : forall (small : Prop) sites known b n e np e' read cnt,
  buf_ok small sites b -> c_pc (r_c (b_ring b)) = CHave n -> 0 < n -> enc_ok e -> 0 <= b_id b < 2 ^ 32 ->
  encodeLogMsgs e (s_data (r_mem (b_ring b))) (c_pos (r_c (b_ring b))) (Z.min RELEASE n) (b_id b) np (firstn known sites) = (e', read, cnt) ->
  let xs := firstn (Z.to_nat cnt) (skipn (b_taken b) (b_msgs b)) in
  0 <= read <= n /\ (read = 0 -> cnt = 0) /\ 0 <= cnt /\
  (0 < read -> exists r',
     ring_run SBS (LTake (Z.to_nat read) :: repeat LConsumer (S (Z.to_nat read))) (b_ring b) = Some r' /\
     buf_ok small sites (Buf (b_id b) r' (b_msgs b) (b_taken b + Z.to_nat cnt)) /\
     r_mem r' = r_mem (b_ring b) /\ r_p r' = r_p (b_ring b) /\ r_sent r' = r_sent (b_ring b) /\ c_pc (r_c r') = CHave (n - read)) /\
  ((e' = e /\ read = 0 /\ e_space e < 9) \/
   exists ws, compressed_all sites xs ws /\
    load (e_mem e') (e_wp e) (length (extent_bytes (b_id b) np ws)) = extent_bytes (b_id b) np ws /\
    e_wp e' = e_wp e + zlen (extent_bytes (b_id b) np ws) /\
    e_base e' = e_base e /\ e_end e' = e_end e /\
    e_hi e <= e_hi e' /\ e_wp e' <= e_hi e' <= e_end e' /\
    (forall y, y < e_wp e \/ e_hi e' <= y -> e_mem e' y = e_mem e y) /\
    mem_bytes (e_mem e') /\
    Forall (fun x => sm_id x < Z.of_nat known) xs /\ (small -> zlen (extent_bytes (b_id b) np ws) <= EXTENT_MAX)).
Proof.
  intros small sites known b n e np e' read cnt HB HC Hn He Hid HE xs.
  destruct (handed_messages small sites b n HB HC) as (j & Hj & Hms). cbv zeta in Hms. destruct Hms as (HS & HZ & HL & HSm).
  set (ms := firstn (j - b_taken b) (skipn (b_taken b) (b_msgs b))) in *.
  set (bs := firstn (j - b_taken b) (skipn (b_taken b) (r_sent (b_ring b)))) in *.
  pose proof HB as (A & B & C & D & E & F).
  assert (MB : mem_bytes (s_data (r_mem (b_ring b)))) by apply B.
  assert (HR : 0 <= Z.min RELEASE n <= zlen (concat bs)) by (unfold RELEASE, STAGING_BUFFER_SIZE; lia).
  assert (LM : length ms = length bs).
  { destruct HS as [HS _]. apply Forall2_length_eq in HS || (clear - HS; induction HS; cbn; auto). }
  pose proof HE as HE0.
  destruct (encodeLogMsgs_spec sites known ms bs _ _ _ _ _ _ _ _ _ HS MB He Hid HR HE) as [(S1 & -> & -> & ->)|S].
  { splits; try lia. left. auto. }
  destruct S as (k & ws & A0 & A1 & A2 & A3 & A4 & A5 & A6 & A7 & A8 & A9 & A10 & A11 & A12 & A13 & A14 & A15).
  subst cnt.
  assert (XS : xs = firstn k ms). { subst xs ms. rewrite Nat2Z.id, firstn_firstn_le by lia. reflexivity. }
  assert (NE : Forall (fun b => 0 < zlen b) bs) by (destruct HS as [HS _]; eapply staged_nonempty; eauto).
  assert (RN : read <= n).
  { rewrite A4, <- HZ. rewrite <- (firstn_skipn k bs) at 2. rewrite concat_app, zlen_app. pose proof (zlen_nonneg _ (concat (skipn k bs))). lia. }
  pose proof (zlen_nonneg _ (concat (firstn k bs))).
  splits; try lia.
  - intros R0. assert (k <= 0)%nat; [|lia]. apply (concat_mono bs); auto; [lia|]. cbn [firstn concat]. rewrite zlen_nil. lia.
  - intros R0. destruct (b_ring b) as [m cons p [cp c csb] sent got] eqn:ER. cbn [r_c c_pc r_mem r_sent r_got c_pos r_p] in *. subst cp.
    rewrite Nat2Z.id. eexists. split; [apply take_run; lia|]. cbn [r_mem r_p r_sent r_c c_pc]. splits; auto; [|f_equal; lia].
    assert (ER' : ring_run SBS (LTake (Z.to_nat read) :: repeat LConsumer (S (Z.to_nat read))) (Ring m cons p (Consumer (CHave n) c csb) sent got)
       = Some (Ring m cons p (Consumer (CHave (n - Z.of_nat (Z.to_nat read))) (c + Z.of_nat (Z.to_nat read)) (csb ++ [c + Z.of_nat (Z.to_nat read)])) sent (got ++ load (s_data m) c (Z.to_nat read)))) by (apply take_run; lia).
    unfold buf_ok, all_sent in *. cbn [b_ring b_msgs b_taken r_mem r_p r_sent r_got r_c] in *. splits; auto.
    + eapply run_inv; [exact SBS_range| |exact ER']. exact A.
    + rewrite firstn_plus, concat_app, D. f_equal. destruct HS as [_ HS].
      assert (EB : firstn k bs = firstn k (skipn (b_taken b) sent)) by (subst bs; apply firstn_firstn_le; lia).
      rewrite <- EB. rewrite A4. replace (Z.to_nat (zlen (concat (firstn k bs)))) with (length (concat (firstn k bs))) by (unfold zlen; lia).
      rewrite <- (firstn_skipn k bs) in HS. rewrite concat_app, app_length in HS. apply load_split in HS. tauto.
    + assert (length bs <= length sent - b_taken b)%nat by lia. lia.
  - right. exists ws. rewrite XS. splits; auto; try lia.
    intros Hs. specialize (HSm Hs).
    assert (CT : call_ok (Call e (Z.min RELEASE n) (b_id b) np known)) by (unfold call_ok; cbn; splits; auto; lia).
    destruct (C15_extents_fit_partial sites (Call e (Z.min RELEASE n) (b_id b) np known) ms bs _ _ e' read (Z.of_nat k) CT MB HS) as (_ & _ & HX); auto.
    + cbn [c_n]. lia.
    + cbn [c_n]. unfold RELEASE, RELEASE_THRESHOLD, STAGING_BUFFER_SIZE. lia.
    + cbn [c_enc] in HX. unfold DECODER_STORAGE, STAGING_BUFFER_SIZE, EXTENT_MAX in *. lia.
Qed.
