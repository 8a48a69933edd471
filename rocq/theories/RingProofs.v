(** The invariant of the staging buffer. *)
From Verif Require Import Base BaseProofs DecodeProofs Ring.

Ltac Zify.zify_post_hook ::= Z.div_mod_to_equations.

Section Proofs.

Variable SIZE : Z.
Hypothesis SIZE_range : 1 <= SIZE < 2 ^ 63.

Local Notation producer_step := (Ring.producer_step SIZE).
Local Notation ring_step := (Ring.ring_step SIZE).
Local Notation ring_run := (Ring.ring_run SIZE).
Local Notation new_ring := (Ring.new_ring SIZE).

Definition ld (m : shared) (a n : Z) := load (s_data m) a (Z.to_nat n).

Definition bnd (sent : list (list Z)) (x : list Z) := exists j, x = concat (firstn j sent).

(** What the consumer has still to read, in the view [m]. *)
Definition content (c : Z) (m : shared) :=
  if s_pos m <? c then ld m c (s_end m - c) ++ ld m 0 (s_pos m) else ld m c (s_pos m - c).

Definition view_ok (sent : list (list Z)) (got : list Z) (c : Z) (m : shared) :=
  0 <= s_pos m <= SIZE /\
  bnd sent (got ++ content c m) /\
  (s_pos m < c -> c <= s_end m <= SIZE /\ bnd sent (got ++ ld m c (s_end m - c))).

(** Where the part the consumer can read next ends. *)
Definition lim (c : Z) (m : shared) := if s_pos m <? c then s_end m else s_pos m.

Definition outside (c : Z) (m : shared) (a : Z) :=
  s_pos m <= a < SIZE /\ (s_pos m < c -> a < c).

Definition later (c : Z) (m m' : shared) :=
  (s_pos m < c ->
     s_pos m' < c /\ s_end m' = s_end m /\ s_pos m <= s_pos m' /\
     forall a, c <= a < s_end m \/ a < s_pos m -> s_data m' a = s_data m a) /\
  (c <= s_pos m ->
     (forall a, c <= a < s_pos m -> s_data m' a = s_data m a) /\
     (s_pos m <= s_pos m' \/ s_pos m' < c /\ s_pos m <= s_end m')).

Definition safe (c : Z) (m : shared) (w : pwrite) :=
  match w with WData a _ => outside c m a | _ => True end.

(** From the view [m] on, through the stores [sb], to the view [f]. *)
Fixpoint chain (sent : list (list Z)) (got : list Z) (c : Z) (m : shared) (sb : list pwrite) (f : shared) : Prop :=
  match sb with
  | [] => m = f
  | w :: sb' =>
    view_ok sent got c m /\ s_dead m = false /\ safe c m w /\ later c m (commit m w) /\
    chain sent got c (commit m w) sb' f
  end.

Fixpoint sorted (l : list Z) : Prop :=
  match l with
  | [] => True
  | x :: l' => match l' with [] => True | y :: _ => x <= y end /\ sorted l'
  end.

Definition cinv (sent : list (list Z)) (got : list Z) (c : Z) (m : shared) (pc : cpc) : Prop :=
  match pc with
  | CIdle => True
  | CPeek cp =>
    (c <= cp -> cp <= lim c m /\ bnd sent (got ++ ld m c (cp - c))) /\
    (cp < c -> 0 <= cp <= s_pos m /\ s_pos m < c /\ bnd sent (got ++ ld m c (s_end m - c) ++ ld m 0 cp))
  | CRoll cp => s_pos m < c /\ s_end m = c /\ 0 <= cp <= s_pos m /\ bnd sent (got ++ ld m 0 cp)
  | CHave n => 0 <= n /\ c + n <= lim c m /\ bnd sent (got ++ ld m c n)
  | CRead n k acc =>
    0 <= n /\ c + n <= lim c m /\ bnd sent (got ++ ld m c n) /\
    (length acc <= k)%nat /\ Z.of_nat k <= n /\ acc = load (s_data m) c (length acc)
  | CCheck => s_dead m = true
  | CDeleted => s_dead m = true /\ got = concat sent
  end.

Definition pinv (f : shared) (c : Z) (stale : list Z) (p : producer) : Prop :=
  1 <= p_min p /\ p_pos p + p_min p <= SIZE /\ s_pos f = p_pos p /\
  (s_dead f = true -> p_pc p = PExit) /\
  match p_pc p with
  | PEnd bs v => c <= p_pos p /\ Forall (fun x => v <= x <= c) stale /\ v <= p_pos p /\ 0 <= v
  | PWrap bs v => c <= p_pos p /\ Forall (fun x => v <= x <= c) stale /\ s_end f = p_pos p /\ v <= p_pos p /\ 0 < v
  | PWrite bs k => zlen bs < p_min p /\ (k <= length bs)%nat /\ load (s_data f) (p_pos p) k = firstn k bs
  | _ => True
  end.

(** The values of consumerPos on their way to the producer: [l1] from before the
    consumer rolled over, [l2] from after. *)
Definition sinv (pos min c : Z) (stale : list Z) : Prop :=
  exists l1 l2, stale = l1 ++ l2 /\ l2 <> [] /\ last l2 0 = c /\ sorted l1 /\ sorted l2 /\
    Forall (fun x => 0 <= x <= SIZE) stale /\
    (c <= pos -> Forall (fun x => pos + min <= x) l1) /\
    (pos < c -> l1 = [] /\ Forall (fun x => pos + min <= x) l2).

Definition ring_inv (r : ring) : Prop :=
  let c := c_pos (r_c r) in
  0 <= c /\
  exists f,
    chain (r_sent r) (r_got r) c (r_mem r) (p_sb (r_p r)) f /\
    view_ok (r_sent r) (r_got r) c f /\
    concat (r_sent r) = r_got r ++ content c f /\
    pinv f c (r_cons r :: c_sb (r_c r)) (r_p r) /\
    sinv (p_pos (r_p r)) (p_min (r_p r)) c (r_cons r :: c_sb (r_c r)) /\
    cinv (r_sent r) (r_got r) c (r_mem r) (c_pc (r_c r)).

(** ** Facts about the parts *)

Lemma bnd_more : forall sent x s, bnd sent x -> bnd (sent ++ s) x.
Proof.
  intros sent x s (j & ->). exists (Nat.min j (length sent)).
  rewrite firstn_app. replace (Nat.min j (length sent) - length sent)%nat with 0%nat by lia.
  cbn [firstn]. rewrite app_nil_r. f_equal.
  destruct (le_lt_dec j (length sent)).
  - now rewrite Nat.min_l by lia.
  - rewrite Nat.min_r by lia. now rewrite !firstn_all2 by lia.
Qed.

Lemma bnd_all : forall sent, bnd sent (concat sent).
Proof. intros. exists (length sent). now rewrite firstn_all. Qed.

Lemma ld_nil : forall m a n, n <= 0 -> ld m a n = [].
Proof. intros. unfold ld. replace (Z.to_nat n) with 0%nat by lia. reflexivity. Qed.

Lemma ld_app : forall m a n k, 0 <= n -> 0 <= k -> ld m a (n + k) = ld m a n ++ ld m (a + n) k.
Proof.
  intros. unfold ld. rewrite Z2Nat.inj_add by lia. rewrite load_app. now rewrite Z2Nat.id by lia.
Qed.

Lemma ld_split : forall m a n k, 0 <= k <= n -> ld m a n = ld m a k ++ ld m (a + k) (n - k).
Proof. intros. rewrite <- ld_app by lia. f_equal; lia. Qed.

Lemma ld_ext : forall m m' a n, (forall x, a <= x < a + n -> s_data m x = s_data m' x) -> ld m a n = ld m' a n.
Proof. intros. unfold ld. apply load_ext. intros. apply H. lia. Qed.

Lemma lim_later : forall c m m', later c m m' -> lim c m <= lim c m'.
Proof.
  intros c m m' (H1 & H2). unfold lim.
  destruct (s_pos m <? c) eqn:E.
  - apply Z.ltb_lt in E. destruct (H1 E) as (A & B & _).
    apply Z.ltb_lt in A. rewrite A. lia.
  - apply Z.ltb_ge in E. destruct (H2 E) as (_ & [A | (A & B)]).
    + destruct (s_pos m' <? c) eqn:E'; [apply Z.ltb_lt in E'; lia|]. lia.
    + apply Z.ltb_lt in A. rewrite A. lia.
Qed.

Lemma lim_data : forall c m m' a, later c m m' -> c <= a < lim c m -> s_data m' a = s_data m a.
Proof.
  intros c m m' a (H1 & H2) H. unfold lim in H.
  destruct (s_pos m <? c) eqn:E.
  - apply Z.ltb_lt in E. destruct (H1 E) as (_ & _ & _ & D). apply D. lia.
  - apply Z.ltb_ge in E. destruct (H2 E) as (D & _). apply D. lia.
Qed.

Lemma later_refl : forall c m, later c m m.
Proof. intros. split; intros; splits; auto; lia. Qed.

Lemma later_trans : forall c a b d, later c a b -> later c b d -> later c a d.
Proof.
  intros c a b d Hab Hbd. pose proof (lim_later _ _ _ Hab) as HL.
  destruct Hab as (A1 & A2), Hbd as (B1 & B2). split; intros.
  - destruct (A1 H) as (X1 & X2 & X3 & X4). destruct (B1 X1) as (Y1 & Y2 & Y3 & Y4).
    split; [lia|]. split; [lia|]. split; [lia|]. intros. rewrite Y4, X4; auto; lia.
  - destruct (A2 H) as (X1 & X2). split.
    + intros. destruct (Z_lt_le_dec (s_pos b) c) as [L | L].
      * destruct (B1 L) as (Y1 & Y2 & Y3 & Y4). rewrite Y4, X1; auto; lia.
      * destruct (B2 L) as (Y1 & Y2). rewrite Y1, X1; auto; lia.
    + destruct (Z_lt_le_dec (s_pos b) c) as [L | L].
      * destruct (B1 L) as (Y1 & Y2 & Y3 & Y4). lia.
      * destruct (B2 L) as (Y1 & Y2). lia.
Qed.

(** ** The chain *)

Lemma chain_later : forall sb sent got c m f, chain sent got c m sb f -> later c m f.
Proof.
  induction sb as [|w sb IH]; cbn [chain]; intros.
  - subst. apply later_refl.
  - destruct H as (_ & _ & _ & H & H'). eapply later_trans; eauto.
Qed.

Lemma chain_head : forall sb sent got c m f, chain sent got c m sb f -> view_ok sent got c f -> view_ok sent got c m.
Proof. destruct sb; cbn [chain]; intros; [now subst|]. tauto. Qed.

Lemma chain_dead : forall sb sent got c m f, chain sent got c m sb f -> s_dead m = true -> sb = [] /\ m = f.
Proof. destruct sb; cbn [chain]; intros; [auto|]. destruct H as (_ & H & _). congruence. Qed.

Lemma chain_snoc : forall sb sent got c m f w,
  chain sent got c m sb f -> view_ok sent got c f -> s_dead f = false -> safe c f w -> later c f (commit f w) ->
  chain sent got c m (sb ++ [w]) (commit f w).
Proof.
  induction sb as [|v sb IH]; cbn [chain app]; intros.
  - subst. splits; auto.
  - destruct H as (A & B & C & D & E). splits; auto.
Qed.

Lemma view_more : forall sent got c m s, view_ok sent got c m -> view_ok (sent ++ s) got c m.
Proof.
  intros sent got c m s (A & B & C). split; [exact A|]. split; [now apply bnd_more|].
  intros H. destruct (C H) as (D & E). split; [exact D|]. now apply bnd_more.
Qed.

Lemma chain_more : forall sb sent got c m f s, chain sent got c m sb f -> chain (sent ++ s) got c m sb f.
Proof.
  induction sb; cbn [chain]; intros; auto.
  destruct H as (A & B & C & D & E). splits; auto using view_more.
Qed.

Lemma content_split : forall c m k, 0 <= k -> c + k <= lim c m -> 0 <= s_pos m ->
  content c m = ld m c k ++ content (c + k) m.
Proof.
  intros c m k Hk Hl Hp. unfold content, lim in *. destruct (s_pos m <? c) eqn:E.
  - apply Z.ltb_lt in E. destruct (s_pos m <? c + k) eqn:E'; [|apply Z.ltb_ge in E'; lia].
    rewrite (ld_split m c (s_end m - c) k) by lia. rewrite <- app_assoc. do 2 f_equal. f_equal. lia.
  - apply Z.ltb_ge in E. destruct (s_pos m <? c + k) eqn:E'; [apply Z.ltb_lt in E'; lia|].
    rewrite (ld_split m c (s_pos m - c) k) by lia. do 2 f_equal. lia.
Qed.

Lemma view_take : forall sent got c m k, view_ok sent got c m -> 0 <= k -> c + k <= lim c m ->
  view_ok sent (got ++ ld m c k) (c + k) m.
Proof.
  intros sent got c m k (A & B & C) Hk Hl. red. splits; try lia.
  - rewrite <- app_assoc, <- content_split by lia. exact B.
  - intros. assert (s_pos m < c).
    { unfold lim in Hl. destruct (s_pos m <? c) eqn:E; [now apply Z.ltb_lt in E|]. lia. }
    destruct (C H0) as (D & D'). assert (lim c m = s_end m) by (unfold lim; apply Z.ltb_lt in H0; now rewrite H0).
    split; [lia|]. rewrite <- app_assoc.
    replace (s_end m - (c + k)) with (s_end m - c - k) by lia.
    rewrite <- ld_split by lia. exact D'.
Qed.

Lemma later_take : forall c m m' k, later c m m' -> 0 <= k -> c + k <= lim c m -> later (c + k) m m'.
Proof.
  intros c m m' k H Hk Hl. destruct H as (A & B). unfold lim in Hl.
  destruct (s_pos m <? c) eqn:E.
  - apply Z.ltb_lt in E. destruct (A E) as (X1 & X2 & X3 & X4). split; intros; [|lia].
    split; [lia|]. split; [lia|]. split; [lia|]. intros. apply X4. lia.
  - apply Z.ltb_ge in E. destruct (B E) as (X1 & X2). split; intros; [lia|].
    split; [|lia]. intros. apply X1. lia.
Qed.

Lemma chain_take : forall sb sent got c m f k, chain sent got c m sb f -> 0 <= k -> c + k <= lim c m ->
  chain sent (got ++ ld m c k) (c + k) m sb f.
Proof.
  induction sb as [|w sb IH]; cbn [chain]; intros; auto.
  destruct H as (A & B & C & D & E). splits; auto using view_take, later_take.
  - destruct w; cbn [safe] in *; auto. destruct C as (C & C'). split; auto. intros.
    assert (s_pos m < c).
    { unfold lim in H1. destruct (s_pos m <? c) eqn:X; [now apply Z.ltb_lt in X|]. lia. }
    specialize (C' H2). lia.
  - pose proof (lim_later _ _ _ D).
    replace (ld m c k) with (ld (commit m w) c k); [apply IH; auto; lia|].
    apply ld_ext. intros. apply (lim_data c); auto; lia.
Qed.

Lemma content_roll : forall c m, s_pos m < c -> s_end m = c -> 0 <= s_pos m -> content c m = content 0 m.
Proof.
  intros. unfold content. assert (H2 := H). apply Z.ltb_lt in H2. rewrite H2.
  destruct (s_pos m <? 0) eqn:E; [apply Z.ltb_lt in E; lia|].
  rewrite ld_nil by lia. cbn [app]. f_equal; lia.
Qed.

Lemma view_roll : forall sent got c m, view_ok sent got c m -> s_pos m < c -> s_end m = c -> view_ok sent got 0 m.
Proof.
  intros sent got c m (A & B & C) H1 H2. red. splits; try lia. now rewrite <- (content_roll c) by (auto; lia).
Qed.

Lemma chain_roll : forall sb sent got c m f, chain sent got c m sb f -> s_pos m < c -> s_end m = c ->
  chain sent got 0 m sb f /\ s_pos f < c /\ s_end f = c.
Proof.
  induction sb as [|w sb IH]; cbn [chain]; intros.
  - subst. auto.
  - destruct H as (A & B & C & D & E). destruct (proj1 D H0) as (X1 & X2 & X3 & X4).
    destruct (IH _ _ _ _ _ E X1) as (Y1 & Y2 & Y3); [lia|]. splits; auto.
    + eapply view_roll; eauto.
    + destruct w; cbn [safe] in *; auto. destruct C as (C & C'). split; auto. destruct A as (A & _). lia.
    + destruct A as (A & _). split; intros; [lia|]. split; [|lia]. intros. apply X4. lia.
Qed.

(** ** Stale positions *)

Lemma sorted_head : forall l x, sorted (x :: l) -> Forall (fun y => x <= y) (x :: l).
Proof.
  induction l as [|y l IH]; intros x H.
  - constructor; auto; lia.
  - destruct H as (A & B). specialize (IH y B). inversion IH; subst. constructor; [lia|]. constructor; [lia|].
    eapply Forall_impl; [|exact H2]. cbn beta. intros; lia.
Qed.

Lemma sorted_tail : forall l x, sorted (x :: l) -> sorted l.
Proof. intros l x H. apply H. Qed.

Lemma sorted_snoc : forall l v, sorted l -> (l <> [] -> last l 0 <= v) -> sorted (l ++ [v]).
Proof.
  induction l as [|x l IH]; intros v H1 H2; cbn [app]; [split; auto; exact I|].
  destruct l as [|y l].
  - specialize (H2 ltac:(discriminate)). cbn in *. auto.
  - change (last (x :: y :: l) 0) with (last (y :: l) 0) in H2. destruct H1 as (A & B).
    split; [exact A|]. apply IH; [exact B|]. intros _. apply H2. discriminate.
Qed.

Lemma sorted_last : forall l, l <> [] -> sorted l -> Forall (fun x => x <= last l 0) l.
Proof.
  induction l as [|x l IH]; intros H1 H2; [contradiction|].
  destruct l as [|y l].
  - constructor; auto. cbn. lia.
  - change (last (x :: y :: l) 0) with (last (y :: l) 0). destruct H2 as (A & B).
    specialize (IH ltac:(discriminate) B). constructor; [|exact IH]. inversion IH; subst. lia.
Qed.

Lemma last_snoc : forall (l : list Z) v d, last (l ++ [v]) d = v.
Proof. induction l as [|x l IH]; intros; [reflexivity|]. cbn [app]. specialize (IH v d). destruct (l ++ [v]) eqn:E; [destruct l; discriminate|]. exact IH. Qed.

Lemma sinv_min : forall pos min min' c st, min' <= min -> sinv pos min c st -> sinv pos min' c st.
Proof.
  intros pos min min' c st Hm (l1 & l2 & A & B & C & D & E & F & G & H). exists l1, l2. splits; auto.
  - intros X. eapply Forall_impl; [|exact (G X)]. cbn beta. intros; lia.
  - intros X. destruct (H X) as (H' & H''). split; auto. eapply Forall_impl; [|exact H'']. cbn beta. intros; lia.
Qed.

Lemma sinv_move : forall pos min c st k, sinv pos min c st -> 1 <= min -> 0 <= k < min -> sinv (pos + k) (min - k) c st.
Proof.
  intros pos min c st k (l1 & l2 & A & B & C & D & E & F & G & H) Hm Hk. exists l1, l2.
  assert (X : pos + k + (min - k) = pos + min) by lia. rewrite X.
  assert (Hc : pos < c -> pos + min <= c).
  { intros L. destruct (H L) as (_ & H'). rewrite <- C.
    destruct l2 as [|x l2] using rev_ind; [contradiction|]. rewrite last_snoc. apply Forall_app in H'.
    destruct H' as (_ & H'). inversion H'; auto. }
  splits; auto.
  - intros L. destruct (Z_le_gt_dec c pos) as [L' | L']; [auto|]. specialize (Hc ltac:(lia)). lia.
  - intros L. apply H. lia.
Qed.

(** The consumer moves on in the same lap. *)
Lemma sinv_take : forall pos min c st k, sinv pos min c st -> 0 <= k -> c + k <= SIZE -> 1 <= min ->
  (c <= pos -> c + k <= pos) -> sinv pos min (c + k) (st ++ [c + k]).
Proof.
  intros pos min c st k (l1 & l2 & A & B & C & D & E & F & G & H) Hk Hs Hm Hp.
  exists l1, (l2 ++ [c + k]). splits.
  - subst st. now rewrite app_assoc.
  - destruct l2; discriminate.
  - apply last_snoc.
  - auto.
  - apply sorted_snoc; auto. lia.
  - apply Forall_app; split; auto. constructor; auto. split; auto.
    rewrite <- C. subst st. apply Forall_app in F. destruct F as (_ & F).
    destruct l2 as [|x l2] using rev_ind; [contradiction|]. rewrite last_snoc. apply Forall_app in F.
    destruct F as (_ & F). inversion F; subst. lia.
  - intros. destruct (Z_le_gt_dec c pos); [auto|].
    destruct (H ltac:(lia)) as (-> & _). constructor.
  - intros. destruct (Z_le_gt_dec c pos); [lia|]. destruct (H ltac:(lia)) as (H' & H''). split; auto.
    apply Forall_app; split; auto. constructor; auto.
    destruct l2 as [|x l2] using rev_ind; [contradiction|]. rewrite last_snoc in C. apply Forall_app in H''.
    destruct H'' as (_ & H''). inversion H''; subst. lia.
Qed.

Lemma sinv_roll : forall pos min c st, sinv pos min c st -> 0 <= pos < c -> sinv pos min 0 (st ++ [0]).
Proof.
  intros pos min c st (l1 & l2 & A & B & C & D & E & F & G & H) Hp.
  destruct (H ltac:(lia)) as (-> & H'). cbn [app] in A. subst st.
  exists l2, [0]. splits; auto; try discriminate.
  - cbn. auto.
  - apply Forall_app; split; auto. constructor; auto. lia.
  - lia.
Qed.

Lemma sinv_commit : forall pos min c x v st, sinv pos min c (x :: v :: st) -> sinv pos min c (v :: st).
Proof.
  intros pos min c x v st (l1 & l2 & A & B & C & D & E & F & G & H). inversion F; subst.
  destruct l1 as [|y l1].
  - destruct l2 as [|y l2]; [discriminate|]. injection A as -> A. cbn [app] in A. destruct l2 as [|z l2]; [discriminate|].
    exists [], (z :: l2). splits; auto; try discriminate.
    + exact (sorted_tail _ _ E).
    + intros X. destruct (H X) as (_ & Y). inversion Y; auto.
  - injection A as -> A. exists l1, l2. splits; auto.
    + exact (sorted_tail _ _ D).
    + intros X. specialize (G X). inversion G; auto.
    + intros X. destruct (H X). discriminate.
Qed.

(** What the producer learns by reading consumerPos. *)
Lemma sinv_read : forall pos min c v st, sinv pos min c (v :: st) -> 1 <= min ->
  0 <= v <= SIZE /\
  (v <= pos -> c <= pos /\ Forall (fun x => v <= x <= c) (v :: st)) /\
  (pos < v -> sinv pos (v - pos) c (v :: st)).
Proof.
  intros pos min c v st (l1 & l2 & A & B & C & D & E & F & G & H) Hm.
  split; [inversion F; auto|]. split.
  - intros Hv.
    assert (Hc : c <= pos).
    { destruct (Z_le_gt_dec c pos); auto. exfalso. destruct (H ltac:(lia)) as (-> & H').
      destruct l2; [discriminate|]. injection A as -> A. inversion H'; subst. lia. }
    split; auto. destruct l1 as [|y l1].
    + cbn [app] in A. rewrite A in *. apply Forall_forall. intros x Hx. split.
      * destruct l2 as [|y l2]; [contradiction|]. injection A as -> A. apply sorted_head in E.
        rewrite Forall_forall in E. auto.
      * apply sorted_last in E; auto. rewrite C in E. rewrite Forall_forall in E. auto.
    + injection A as -> A. specialize (G Hc). inversion G; subst. lia.
  - intros Hv. exists l1, l2. replace (pos + (v - pos)) with v by lia. splits; auto.
    + intros Hc. destruct l1 as [|y l1]; [constructor|]. injection A as -> A. now apply sorted_head.
    + intros Hc. destruct (H Hc) as (-> & H'). split; auto. destruct l2 as [|y l2]; [discriminate|].
      injection A as -> A. now apply sorted_head.
Qed.

Lemma sinv_wrap : forall pos min c v st, sinv pos min c (v :: st) -> c <= pos -> 1 <= min ->
  forall u, 0 < u -> Forall (fun x => u <= x <= c) (v :: st) -> sinv 0 u c (v :: st).
Proof.
  intros pos min c v st (l1 & l2 & A & B & C & D & E & F & G & H) Hc Hm u Hu HF.
  assert (l1 = []).
  { destruct l1 as [|y l1]; auto. injection A as -> A. specialize (G Hc). inversion G; subst. inversion HF; subst. lia. }
  subst l1. exists [], l2. splits; auto.
  - intros _. split; auto. cbn [app] in A. rewrite <- A. eapply Forall_impl; [|exact HF]. cbn beta. intros; lia.
Qed.

(** ** The stores of the producer, on its own view *)

Lemma data_keeps : forall c f a b x, outside c f a -> 0 <= s_pos f -> (x < a \/ a < x) -> s_data (commit f (WData a b)) x = s_data f x.
Proof.
  intros. cbn [commit s_data]. apply store_outside. rewrite zlen_cons, zlen_nil. lia.
Qed.

Lemma data_later : forall sent got c f a b, view_ok sent got c f -> outside c f a -> later c f (commit f (WData a b)).
Proof.
  intros sent got c f a b (V & _ & W) O. split; intros H.
  - destruct (W H) as (W' & _). destruct O as (O & O'). specialize (O' H).
    cbn [commit s_pos s_end]. split; [lia|]. split; [lia|]. split; [lia|]. intros x Hx. 
    change (s_data (commit f (WData a b)) x = s_data f x).
    apply (data_keeps c); [split; auto|lia|lia].
  - cbn [commit s_pos s_end]. split; [|lia]. intros x Hx.
    change (s_data (commit f (WData a b)) x = s_data f x).
    apply (data_keeps c); [exact O|lia|]. destruct O. lia.
Qed.

Lemma data_view : forall sent got c f a b, view_ok sent got c f -> 0 <= c -> outside c f a ->
  view_ok sent got c (commit f (WData a b)) /\ content c (commit f (WData a b)) = content c f.
Proof.
  intros sent got c f a b V Hc O. pose proof (data_later _ _ _ _ _ b V O) as (L1 & L2). destruct V as (V & V' & W).
  assert (EC : content c (commit f (WData a b)) = content c f).
  { unfold content. cbn [commit s_pos s_end] in *. destruct (s_pos f <? c) eqn:E.
    - apply Z.ltb_lt in E. destruct (L1 E) as (_ & _ & _ & D). f_equal; apply ld_ext; intros; apply D; lia.
    - apply Z.ltb_ge in E. destruct (L2 E) as (D & _). apply ld_ext; intros; apply D; lia. }
  split; [|exact EC]. split; [exact V|]. split; [now rewrite EC|].
  intros H. destruct (W H) as (W1 & W2). split; [exact W1|].
  replace (ld (commit f (WData a b)) c (s_end (commit f (WData a b)) - c)) with (ld f c (s_end f - c)); auto.
  cbn [commit s_end]. apply ld_ext. intros. symmetry. destruct (L1 H) as (_ & _ & _ & D). apply D; lia.
Qed.

Lemma end_view : forall sent got c f v, view_ok sent got c f -> c <= s_pos f ->
  view_ok sent got c (commit f (WEnd v)) /\ content c (commit f (WEnd v)) = content c f /\ later c f (commit f (WEnd v)).
Proof.
  intros sent got c f v (V & V' & W) H.
  assert (EC : content c (commit f (WEnd v)) = content c f).
  { unfold content. cbn [commit s_pos]. destruct (s_pos f <? c) eqn:E; [apply Z.ltb_lt in E; lia|]. reflexivity. }
  split; [|split].
  - split; [exact V|]. split; [now rewrite EC|]. cbn [commit s_pos]. lia.
  - exact EC.
  - split; intros; [lia|]. split; auto. cbn [commit s_pos]. lia.
Qed.

Lemma wrap_view : forall sent got c f, view_ok sent got c f -> 0 < c <= s_pos f -> s_end f = s_pos f ->
  view_ok sent got c (commit f (WPos 0)) /\ content c (commit f (WPos 0)) = content c f /\ later c f (commit f (WPos 0)).
Proof.
  intros sent got c f (V & V' & W) H He.
  assert (EC : content c (commit f (WPos 0)) = content c f).
  { unfold content. cbn [commit s_pos s_end]. destruct (s_pos f <? c) eqn:E; [apply Z.ltb_lt in E; lia|].
    destruct (0 <? c) eqn:E'; [|apply Z.ltb_ge in E'; lia]. rewrite (ld_nil _ 0 0) by lia. rewrite app_nil_r.
    rewrite He. reflexivity. }
  split; [|split].
  - split; [cbn [commit s_pos]; lia|]. split; [now rewrite EC|]. cbn [commit s_pos s_end].
    intros _. split; [lia|]. rewrite He. unfold content in V'.
    destruct (s_pos f <? c) eqn:E; [apply Z.ltb_lt in E; lia|]. exact V'.
  - exact EC.
  - split; intros; [lia|]. split; auto. cbn [commit s_pos s_end]. lia.
Qed.

Lemma pos_view : forall sent got c f n, view_ok sent got c f -> 0 <= n -> s_pos f + n <= SIZE -> 0 <= c ->
  (s_pos f < c -> s_pos f + n < c) -> concat sent = got ++ content c f ->
  let f' := commit f (WPos (s_pos f + n)) in let bs := ld f (s_pos f) n in
  view_ok (sent ++ [bs]) got c f' /\ concat (sent ++ [bs]) = got ++ content c f' /\ later c f f'.
Proof.
  intros sent got c f n V Hn Hs Hc Hw HC f' bs.
  assert (V0 := view_more _ _ _ _ [bs] V).
  destruct V as (V & V' & W).
  assert (EC : content c f' = content c f ++ bs).
  { assert (EL : forall a k, ld f' a k = ld f a k) by reflexivity.
    unfold content. change (s_pos f') with (s_pos f + n). change (s_end f') with (s_end f). rewrite !EL.
    destruct (s_pos f <? c) eqn:E.
    - apply Z.ltb_lt in E. specialize (Hw E). apply Z.ltb_lt in Hw. rewrite Hw. rewrite <- app_assoc. f_equal.
      rewrite ld_app by lia. f_equal.
    - apply Z.ltb_ge in E. destruct (s_pos f + n <? c) eqn:E'; [apply Z.ltb_lt in E'; lia|].
      rewrite (ld_split f c (s_pos f + n - c) (s_pos f - c)) by lia. f_equal. unfold bs. f_equal; lia. }
  assert (HC' : concat (sent ++ [bs]) = got ++ content c f').
  { rewrite concat_app, HC, EC, <- app_assoc. cbn [concat]. now rewrite app_nil_r. }
  split; [|split]; auto.
  - split; [unfold f'; cbn [commit s_pos]; lia|]. split; [rewrite <- HC'; apply bnd_all|].
    intros H. destruct V0 as (_ & _ & W0). assert (s_pos f < c) by (unfold f' in H; cbn [commit s_pos] in H; lia).
    exact (W0 H0).
  - unfold f'. split; intros; cbn [commit s_pos s_end s_data].
    + specialize (Hw H). split; [lia|]. split; [lia|]. split; [lia|]. auto.
    + split; auto. lia.
Qed.

(** ** The consumer *)

Lemma cinv_later : forall sent got c m m' pc, cinv sent got c m pc -> 0 <= c -> later c m m' -> (s_dead m = true -> s_dead m' = true) ->
  cinv sent got c m' pc.
Proof.
  intros sent got c m m' pc H Hc L D. pose proof (lim_later _ _ _ L) as HL.
  assert (E : forall n, c + n <= lim c m -> ld m' c n = ld m c n).
  { intros. apply ld_ext. intros. apply (lim_data c); auto. lia. }
  assert (EE : s_pos m < c -> 0 <= s_pos m -> forall n, n <= s_pos m -> ld m' 0 n = ld m 0 n).
  { intros. apply ld_ext. intros. destruct (proj1 L H0) as (_ & _ & _ & X). apply X. lia. }
  destruct pc as [|cp|cp|n|n k acc| |]; cbn [cinv] in *; auto.
  - destruct H as (H1 & H2). split; intros Hcp.
    + destruct (H1 Hcp) as (A & B). split; [lia|]. rewrite E by lia. exact B.
    + destruct (H2 Hcp) as (A & B & C). destruct (proj1 L B) as (X1 & X2 & X3 & X4).
      split; [lia|]. split; [lia|]. rewrite X2.
      assert (lim c m = s_end m) by (unfold lim; apply Z.ltb_lt in B; now rewrite B).
      rewrite E by lia. rewrite EE by (auto; lia). exact C.
  - destruct H as (A & B & C & C'). destruct (proj1 L A) as (X1 & X2 & X3 & X4).
    split; [lia|]. split; [lia|]. split; [lia|]. rewrite EE by (auto; lia). exact C'.
  - destruct H as (A & B & C). split; [lia|]. split; [lia|]. rewrite E by lia. exact C.
  - destruct H as (A & B & C & F & G & I). split; [lia|]. split; [lia|]. rewrite E by lia.
    split; [exact C|]. split; [exact F|]. split; [exact G|]. rewrite I at 1.
    apply load_ext. intros. symmetry. apply (lim_data c); auto. lia.
  - intuition.
Qed.

Lemma cinv_more : forall sent got c m pc s, cinv sent got c m pc -> s_dead m = false -> cinv (sent ++ s) got c m pc.
Proof.
  intros sent got c m pc s H D. destruct pc as [|cp|cp|n|n k acc| |]; cbn [cinv] in *; auto.
  - destruct H as (H1 & H2). split; intros X; [destruct (H1 X)|destruct (H2 X) as (? & ? & ?)]; auto using bnd_more.
  - destruct H as (? & ? & ? & ?). auto using bnd_more.
  - destruct H as (? & ? & ?). auto using bnd_more.
  - destruct H as (? & ? & ? & ? & ? & ?). splits; auto using bnd_more.
  - destruct H. congruence.
Qed.

Lemma cinv_peek : forall sent got c m, view_ok sent got c m -> cinv sent got c m (CPeek (s_pos m)).
Proof.
  intros sent got c m (A & B & C). cbn [cinv]. unfold content in B. unfold lim. split; intros H.
  - destruct (s_pos m <? c) eqn:E; [apply Z.ltb_lt in E; lia|]. split; [lia|]. exact B.
  - destruct (s_pos m <? c) eqn:E; [|apply Z.ltb_ge in E; lia]. split; [lia|]. split; [lia|]. exact B.
Qed.

Lemma pinv_take : forall f c v st p k, pinv f c (v :: st) p -> 0 <= k -> (c <= p_pos p -> c + k <= p_pos p) ->
  pinv f (c + k) ((v :: st) ++ [c + k]) p.
Proof.
  intros f c v st p k (A & B & C & D & E) Hk Hp. red. splits; auto.
  assert (X : forall u, Forall (fun x => u <= x <= c) (v :: st) -> Forall (fun x => u <= x <= c + k) ((v :: st) ++ [c + k])).
  { intros u F. apply Forall_app. split; [eapply Forall_impl; [|exact F]; cbn beta; intros; lia|].
    inversion F; subst. constructor; auto. lia. }
  destruct (p_pc p); auto.
  - destruct E as (E1 & E2 & E3 & E4). splits; auto.
  - destruct E as (E1 & E2 & E3 & E4 & E5). splits; auto.
Qed.

Lemma pinv_roll : forall f c st st' p c', pinv f c st p -> p_pos p < c -> pinv f c' st' p.
Proof.
  intros f c st st' p c' (A & B & C & D & E) H. red. splits; auto. destruct (p_pc p); auto; lia.
Qed.

Lemma pinv_commit : forall f c v u st p, pinv f c (v :: u :: st) p -> pinv f c (u :: st) p.
Proof.
  intros f c v u st p (A & B & C & D & E). red. splits; auto. destruct (p_pc p); auto.
  - destruct E as (E1 & E2 & E3). splits; auto; try tauto. inversion E2; auto.
  - destruct E as (E1 & E2 & E3 & E4 & E5). splits; auto. inversion E2; auto.
Qed.

Lemma new_ring_inv : ring_inv new_ring.
Proof.
  split; [cbn; lia|]. exists (r_mem new_ring).
  assert (V : view_ok [] [] 0 (r_mem new_ring)).
  { split; [cbn; lia|]. split; [exists 0%nat; reflexivity|]. cbn. lia. }
  split; [reflexivity|]. split; [exact V|]. split; [reflexivity|]. split; [|split].
  - red. cbn. splits; auto; try lia; try discriminate.
  - exists [], [0]. cbn. splits; auto; try discriminate; try lia; constructor; try lia; constructor.
  - exact I.
Qed.

Lemma sinv_last : forall pos min c st, sinv pos min c st -> pos < c -> pos + min <= c.
Proof.
  intros pos min c st (l1 & l2 & A & B & C & D & E & F & G & H) L.
  destruct (H L) as (_ & H'). rewrite <- C.
  destruct l2 as [|x l2] using rev_ind; [contradiction|]. rewrite last_snoc. apply Forall_app in H'.
  destruct H' as (_ & H'). inversion H'; auto.
Qed.

Lemma sinv_full : forall pos min c v st, sinv pos min c (v :: st) -> 1 <= min -> v <= pos -> forall min', sinv pos min' c (v :: st).
Proof.
  intros pos min c v st HS Hm Hv min'.
  destruct (sinv_read _ _ _ _ _ HS Hm) as (_ & X & _). destruct (X Hv) as (Hc & _).
  destruct HS as (l1 & l2 & A & B & C & D & E & F & G & H). exists l1, l2. splits; auto; intros; [|lia].
  destruct l1 as [|y l1]; auto. injection A as -> A. specialize (G Hc). inversion G; subst. lia.
Qed.

Lemma firstn_snoc : forall A (l : list A) k x, nth_error l k = Some x -> firstn (k + 1) l = firstn k l ++ [x].
Proof.
  induction l as [|y l IH]; intros k x H; destruct k; try discriminate.
  - cbn in *. congruence.
  - cbn [Nat.add firstn app]. f_equal. now apply IH.
Qed.

(** The producer appends a store. *)
Lemma append_inv : forall m cons pc pos mn sb co sent got f w pc' pos' mn' s,
  let c := c_pos co in
  chain sent got c m sb f -> view_ok sent got c f -> s_dead f = false ->
  safe c f w -> later c f (commit f w) ->
  view_ok (sent ++ s) got c (commit f w) -> concat (sent ++ s) = got ++ content c (commit f w) ->
  pinv (commit f w) c (cons :: c_sb co) (Producer pc' pos' mn' (sb ++ [w])) ->
  sinv pos' mn' c (cons :: c_sb co) ->
  cinv sent got c m (c_pc co) -> 0 <= c ->
  ring_inv (Ring m cons (Producer pc pos mn sb) co sent got) ->
  ring_inv (Ring m cons (Producer pc' pos' mn' (sb ++ [w])) co (sent ++ s) got).
Proof.
  intros m cons pc pos mn sb co sent got f w pc' pos' mn' s c HC HV HD HS HL HV' HC' HP HS' HI H0 _.
  assert (Dm : s_dead m = false).
  { destruct (s_dead m) eqn:E; auto. destruct (chain_dead _ _ _ _ _ _ HC E) as (_ & ->). congruence. }
  split; [exact H0|]. exists (commit f w). cbn [r_mem r_cons r_p r_c r_sent r_got p_sb p_pos p_min].
  splits; auto.
  - apply chain_more. now apply chain_snoc.
  - now apply cinv_more.
Qed.

Lemma some_inj : forall A (x y : A), Some x = Some y -> x = y.
Proof. intros A x y H. now injection H. Qed.

Lemma producer_inv : forall r r', ring_inv r -> ring_step LProducer r = Some r' -> ring_inv r'.
Proof.
  intros [m cons [pc pos mn sb] co sent got] r' HI H. assert (HI0 := HI).
  destruct HI as (H0 & f & HC & HV & HT & HP & HS & HK).
  cbn [Ring.ring_step r_mem r_cons r_p r_c r_sent r_got p_sb p_pos p_min] in *.
  destruct HP as (P1 & P2 & P3 & P4 & P5). cbn [p_pc p_pos p_min] in *.
  assert (HD : pc <> PExit -> s_dead f = false).
  { intros X. destruct (s_dead f); auto. specialize (P4 eq_refl). contradiction. }
  unfold Ring.producer_step in H. cbn [p_pc p_pos p_min p_sb] in H.
  destruct pc as [|bs|bs v|bs v|bs k|]; try discriminate; specialize (HD ltac:(discriminate)).
  - (* PTest *)
    assert (NO : forall pc' mn', 1 <= mn' -> pos + mn' <= SIZE -> sinv pos mn' (c_pos co) (cons :: c_sb co) ->
      match pc' with
      | PEnd bs v => c_pos co <= pos /\ Forall (fun x => v <= x <= c_pos co) (cons :: c_sb co) /\ v <= pos /\ 0 <= v
      | PWrite bs k => zlen bs < mn' /\ k = 0%nat
      | PTest _ => True
      | _ => False
      end ->
      ring_inv (Ring m cons (Producer pc' pos mn' sb) co (sent ++ []) got)).
    { intros. rewrite app_nil_r. split; [exact H0|]. exists f. cbn [r_mem r_cons r_p r_c r_sent r_got p_sb p_pos p_min].
      splits; auto. red. cbn [p_pc p_pos p_min]. splits; auto.
      - congruence.
      - destruct pc'; auto; try contradiction. destruct H4 as (H4 & ->). splits; auto; lia. }
    destruct (zlen bs <? mn) eqn:E1; [apply some_inj in H; subst r'; apply NO; auto; split; auto; lia|].
    destruct (sinv_read _ _ _ _ _ HS P1) as (R0 & R1 & R2).
    destruct (cons <=? pos) eqn:E2.
    + assert (L : cons <= pos) by lia. destruct (R1 L) as (R3 & R4).
      destruct (zlen bs <? SIZE - pos) eqn:E3; apply some_inj in H; subst r'; apply NO; try lia.
      * eapply sinv_full; eauto.
      * eapply sinv_full; eauto.
      * splits; auto; lia.
    + apply some_inj in H; subst r'. apply NO; auto; try lia. apply R2. lia.
  - (* PEnd *)
    apply some_inj in H; subst r'. destruct P5 as (A & B & C & D).
    destruct (end_view _ _ _ _ pos HV ltac:(lia)) as (X1 & X2 & X3).
    eapply append_inv with (f := f); eauto.
    + exact I.
    + now apply view_more.
    + rewrite app_nil_r, X2. exact HT.
    + red. cbn [p_pc p_pos p_min commit s_pos s_dead s_end]. splits; auto; try congruence.
      destruct (v =? 0) eqn:E; auto. splits; auto; lia.
  - (* PWrap *)
    apply some_inj in H; subst r'. destruct P5 as (A & B & C & D & E).
    assert (Hc : v <= c_pos co) by (inversion B; lia).
    destruct (wrap_view _ _ _ _ HV ltac:(lia) ltac:(lia)) as (X1 & X2 & X3).
    eapply append_inv with (f := f); eauto.
    + exact I.
    + now apply view_more.
    + rewrite app_nil_r, X2. exact HT.
    + red. cbn [p_pc p_pos p_min commit s_pos s_dead]. splits; auto; try congruence; lia.
    + eapply sinv_wrap; eauto.
  - (* PWrite *)
    destruct P5 as (A & B & C). assert (Hz := zlen_nonneg _ bs). assert (V0 := proj1 HV).
    destruct (nth_error bs k) as [b|] eqn:E.
    + apply some_inj in H; subst r'. assert (K : (k < length bs)%nat) by (apply nth_error_Some; congruence).
      assert (O : outside (c_pos co) f (pos + Z.of_nat k)).
      { split; [unfold zlen in *; lia|]. intros L. rewrite P3 in L. apply (sinv_last _ _ _ _ HS) in L. unfold zlen in *; lia. }
      destruct (data_view _ _ _ _ _ b HV H0 O) as (X1 & X2).
      eapply append_inv with (f := f); eauto.
      * eapply data_later; eauto.
      * now apply view_more.
      * rewrite app_nil_r, X2. exact HT.
      * red. cbn [p_pc p_pos p_min commit s_pos s_dead]. splits; auto; try congruence.
        replace (S k) with (k + 1)%nat by lia. rewrite load_app. cbn [s_data].
        rewrite (load_ext k _ (s_data f)); [|intros; apply store_outside; rewrite zlen_cons, zlen_nil; lia].
        rewrite C. rewrite (firstn_snoc _ _ _ _ E). f_equal.
        cbn [load]. f_equal. unfold store.
        replace (pos + Z.of_nat k <=? pos + Z.of_nat k) with true by lia.
        replace (pos + Z.of_nat k <? pos + Z.of_nat k + zlen [b]) with true by (rewrite zlen_cons, zlen_nil; lia).
        cbn [andb]. replace (pos + Z.of_nat k - (pos + Z.of_nat k)) with 0 by lia. reflexivity.
    + apply some_inj in H; subst r'. apply nth_error_None in E. assert (K : k = length bs) by lia. subst k.
      rewrite firstn_all in C.
      assert (EB : ld f (s_pos f) (zlen bs) = bs) by (rewrite P3; unfold ld, zlen; rewrite Nat2Z.id; exact C).
      assert (Hw : s_pos f < c_pos co -> s_pos f + zlen bs < c_pos co).
      { intros L. rewrite P3 in *. apply (sinv_last _ _ _ _ HS) in L. lia. }
      pose proof (pos_view _ _ _ _ (zlen bs) HV Hz ltac:(lia) H0 Hw HT) as (X1 & X2 & X3).
      rewrite EB, P3 in *.
      eapply append_inv with (f := f); eauto.
      * exact I.
      * red. cbn [p_pc p_pos p_min commit s_pos s_dead]. splits; auto; try congruence; lia.
      * apply sinv_move; auto; lia.
Qed.

Lemma log_inv : forall bs r r', ring_inv r -> ring_step (LLog bs) r = Some r' -> ring_inv r'.
Proof.
  intros bs [m cons [pc pos mn sb] co sent got] r' (H0 & f & HC & HV & HT & HP & HS & HK) H.
  cbn [Ring.ring_step r_mem r_cons r_p r_c r_sent r_got p_sb p_pos p_min p_pc] in *.
  destruct pc; try discriminate. apply some_inj in H; subst r'.
  split; [exact H0|]. exists f. cbn [r_mem r_cons r_p r_c r_sent r_got p_sb p_pos p_min].
  splits; auto. destruct HP as (P1 & P2 & P3 & P4 & P5). red. splits; auto.
  cbn [p_pc] in *. intros X. specialize (P4 X). discriminate.
Qed.

Lemma exit_inv : forall r r', ring_inv r -> ring_step LExit r = Some r' -> ring_inv r'.
Proof.
  intros [m cons [pc pos mn sb] co sent got] r' HI H. assert (HI0 := HI).
  destruct HI as (H0 & f & HC & HV & HT & HP & HS & HK).
  cbn [Ring.ring_step r_mem r_cons r_p r_c r_sent r_got p_sb p_pos p_min p_pc] in *.
  destruct pc; try discriminate. apply some_inj in H; subst r'.
  destruct HP as (P1 & P2 & P3 & P4 & P5). cbn [p_pc p_pos p_min] in *.
  rewrite <- (app_nil_r sent).
  assert (EC : content (c_pos co) (commit f WDead) = content (c_pos co) f) by reflexivity.
  eapply append_inv with (f := f); eauto.
  - destruct (s_dead f); auto. specialize (P4 eq_refl). discriminate.
  - split; intros; cbn [commit s_pos s_end s_data]; splits; auto; lia.
  - rewrite app_nil_r. exact HV.
  - rewrite app_nil_r, EC. exact HT.
  - red. cbn [p_pc p_pos p_min commit s_pos s_dead]. splits; auto.
Qed.

Lemma commitp_inv : forall r r', ring_inv r -> ring_step LCommitP r = Some r' -> ring_inv r'.
Proof.
  intros [m cons [pc pos mn sb] co sent got] r' (H0 & f & HC & HV & HT & HP & HS & HK) H.
  cbn [Ring.ring_step r_mem r_cons r_p r_c r_sent r_got p_sb p_pos p_min p_pc] in *.
  destruct sb as [|w sb]; [discriminate|]. apply some_inj in H; subst r'.
  cbn [chain] in HC. destruct HC as (A & B & C & D & E).
  split; [exact H0|]. exists f. cbn [r_mem r_cons r_p r_c r_sent r_got p_sb p_pos p_min].
  splits; auto. apply (cinv_later _ _ _ m); auto. congruence.
Qed.

Lemma commitc_inv : forall r r', ring_inv r -> ring_step LCommitC r = Some r' -> ring_inv r'.
Proof.
  intros [m cons p [cpc c csb] sent got] r' (H0 & f & HC & HV & HT & HP & HS & HK) H.
  cbn [Ring.ring_step r_mem r_cons r_p r_c r_sent r_got c_pc c_pos c_sb] in *.
  destruct csb as [|v csb]; [discriminate|]. apply some_inj in H; subst r'.
  split; [exact H0|]. exists f. cbn [r_mem r_cons r_p r_c r_sent r_got c_pc c_pos c_sb].
  splits; auto. - eapply pinv_commit; eauto. - eapply sinv_commit; eauto.
Qed.

(** The consumer changes only its own place. *)
Lemma place_inv : forall m cons p cpc c csb sent got cpc',
  ring_inv (Ring m cons p (Consumer cpc c csb) sent got) ->
  (forall f, chain sent got c m (p_sb p) f -> view_ok sent got c f -> concat sent = got ++ content c f ->
     view_ok sent got c m -> cinv sent got c m cpc -> cinv sent got c m cpc') ->
  ring_inv (Ring m cons p (Consumer cpc' c csb) sent got).
Proof.
  intros m cons p cpc c csb sent got cpc' (H0 & f & HC & HV & HT & HP & HS & HK) H.
  cbn [r_mem r_cons r_p r_c r_sent r_got c_pc c_pos c_sb] in *.
  split; [exact H0|]. exists f. cbn [r_mem r_cons r_p r_c r_sent r_got c_pc c_pos c_sb].
  splits; auto. eapply H; eauto using chain_head.
Qed.

Lemma to_u_small : forall v, 0 <= v < 2 ^ 64 -> to_u 64 v = v.
Proof. intros. unfold to_u. now apply Z.mod_small. Qed.

Lemma view_lim : forall sent got c m, view_ok sent got c m -> lim c m <= SIZE.
Proof.
  intros sent got c m (A & B & C). unfold lim. destruct (s_pos m <? c) eqn:E; [|lia]. apply Z.ltb_lt in E.
  destruct (C E). lia.
Qed.

Lemma SIZE_u64 : forall v, 0 <= v <= SIZE -> to_u 64 v = v.
Proof. intros. apply to_u_small. change (2 ^ 64) with (2 * 2 ^ 63). lia. Qed.

Lemma consumer_inv : forall r r', ring_inv r -> ring_step LConsumer r = Some r' -> ring_inv r'.
Proof.
  intros [m cons p [cpc c csb] sent got] r' HI H. assert (HI0 := HI).
  destruct HI as (H0 & f & HC & HV & HT & HP & HS & HK).
  cbn [Ring.ring_step r_mem r_cons r_p r_c r_sent r_got c_pc c_pos c_sb] in *.
  unfold consumer_step in H. cbn [c_pc c_pos c_sb] in H.
  assert (HM : view_ok sent got c m) by (eapply chain_head; eauto).
  pose proof (view_lim _ _ _ _ HM) as HLM.
  destruct cpc as [|cp|cp|n|n k acc| |]; try discriminate.
  - (* CPeek *)
    cbn [cinv] in HK. destruct HK as (K1 & K2). destruct (cp <? c) eqn:E.
    + apply Z.ltb_lt in E. destruct (K2 E) as (A & B & C). destruct HM as (M1 & M2 & M3). destruct (M3 B) as (M4 & M5).
      rewrite SIZE_u64 in H by lia.
      destruct (0 <? s_end m - c) eqn:E'; apply some_inj in H; subst r'; rewrite app_nil_r; eapply place_inv; eauto; intros; cbn [cinv].
      * apply Z.ltb_lt in E'. splits; auto; try lia. unfold lim. assert (B' := B). apply Z.ltb_lt in B'. rewrite B'. lia.
      * apply Z.ltb_ge in E'. splits; auto; try lia. rewrite (ld_nil _ c) in C by lia. exact C.
    + apply Z.ltb_ge in E. destruct (K1 E) as (A & B). rewrite SIZE_u64 in H by lia.
      apply some_inj in H; subst r'; rewrite app_nil_r; eapply place_inv; eauto; intros; cbn [cinv].
      splits; auto; lia.
  - (* CRoll *)
    cbn [cinv] in HK. destruct HK as (K1 & K2 & K3 & K4). rewrite SIZE_u64 in H by (destruct HM; lia).
    apply some_inj in H; subst r'. rewrite app_nil_r.
    destruct (chain_roll _ _ _ _ _ _ HC K1 K2) as (X1 & X2 & X3).
    assert (FP : 0 <= s_pos f) by (destruct HV; lia).
    split; [cbn; lia|]. exists f. cbn [r_mem r_cons r_p r_c r_sent r_got c_pc c_pos c_sb].
    assert (EP : s_pos f = p_pos p) by apply HP.
    splits; auto.
    + eapply view_roll; eauto.
    + rewrite HT. f_equal. apply content_roll; auto.
    + eapply pinv_roll; eauto. lia.
    + change (cons :: csb ++ [0]) with ((cons :: csb) ++ [0]). eapply sinv_roll; eauto. lia.
    + cbn [cinv]. replace (0 + cp) with cp by lia. splits; auto; try lia.
      unfold lim. destruct (s_pos m <? 0) eqn:E; [apply Z.ltb_lt in E|]; lia.
  - (* CRead *)
    cbn [cinv] in HK. destruct HK as (K1 & K2 & K3 & K4 & K5 & K6).
    destruct (length acc <? k)%nat eqn:E; apply some_inj in H; subst r'.
    + apply Nat.ltb_lt in E. rewrite app_nil_r. eapply place_inv; eauto; intros; cbn [cinv].
      rewrite app_length. cbn [length]. splits; auto; try lia.
      rewrite load_app. rewrite <- K6. reflexivity.
    + apply Nat.ltb_ge in E. assert (EA : acc = ld m c (Z.of_nat k)).
      { unfold ld. rewrite Nat2Z.id. replace k with (length acc) by lia. exact K6. }
      rewrite EA. clear EA K6 K4 E HI0 acc. set (kz := Z.of_nat k) in *.
      assert (HL : later c m f) by (eapply chain_later; eauto).
      pose proof (lim_later _ _ _ HL) as HLL.
      assert (EQ : ld m c kz = ld f c kz).
      { symmetry. apply ld_ext. intros. apply (lim_data c); auto. lia. }
      assert (EP : s_pos f = p_pos p) by apply HP.
      assert (LP : c <= p_pos p -> c + kz <= p_pos p).
      { intros. unfold lim in HLL at 2. destruct (s_pos f <? c) eqn:X; [apply Z.ltb_lt in X; lia|]. lia. }
      split; [cbn; lia|]. exists f. cbn [r_mem r_cons r_p r_c r_sent r_got c_pc c_pos c_sb].
      splits; auto.
      * apply chain_take; auto; lia.
      * rewrite EQ. apply view_take; auto; lia.
      * rewrite HT, EQ, <- app_assoc. f_equal. apply content_split; try lia. destruct HV; lia.
      * change (cons :: csb ++ [c + kz]) with ((cons :: csb) ++ [c + kz]). apply pinv_take; auto; lia.
      * change (cons :: csb ++ [c + kz]) with ((cons :: csb) ++ [c + kz]). apply sinv_take; auto; try lia. apply HP.
      * cbn [cinv]. splits; try lia.
        -- assert (lim (c + kz) m = lim c m); [|lia]. unfold lim in K2 |- *.
           destruct (s_pos m <? c) eqn:X1, (s_pos m <? c + kz) eqn:X2; auto; lia.
        -- rewrite <- app_assoc, <- ld_split by lia. exact K3.
  - (* CCheck *)
    cbn [cinv] in HK. destruct (chain_dead _ _ _ _ _ _ HC HK) as (_ & ->).
    apply some_inj in H; subst r'. rewrite app_nil_r. eapply place_inv; eauto; intros.
    destruct (c =? s_pos f) eqn:E; cbn [cinv]; auto. apply Z.eqb_eq in E. split; auto.
    rewrite HT. unfold content. replace (s_pos f <? c) with false by lia. rewrite ld_nil by lia. now rewrite app_nil_r.
Qed.

Lemma step_inv : forall l r r', ring_inv r -> ring_step l r = Some r' -> ring_inv r'.
Proof.
  intros l r r' HI H. destruct l.
  - eapply log_inv; eauto.
  - eapply exit_inv; eauto.
  - eapply producer_inv; eauto.
  - eapply commitp_inv; eauto.
  - eapply consumer_inv; eauto.
  - eapply commitc_inv; eauto.
  - destruct r as [m cons p [cpc c csb] sent got].
    cbn [Ring.ring_step r_mem r_cons r_p r_c r_sent r_got c_pc c_pos c_sb] in H.
    destruct cpc; try discriminate; apply some_inj in H; subst r'; eapply place_inv; eauto; intros; now apply cinv_peek.
  - destruct r as [m cons p [cpc c csb] sent got].
    cbn [Ring.ring_step r_mem r_cons r_p r_c r_sent r_got c_pc c_pos c_sb] in H.
    destruct cpc; try discriminate. destruct ((0 <? Z.of_nat k) && (Z.of_nat k <=? n)) eqn:E; [|discriminate].
    apply some_inj in H; subst r'; eapply place_inv; eauto; intros. cbn [cinv] in *.
    apply andb_true_iff in E. destruct H3 as (A & B & C). splits; auto; try lia. cbn. lia.
  - destruct r as [m cons p [cpc c csb] sent got].
    cbn [Ring.ring_step r_mem r_cons r_p r_c r_sent r_got c_pc c_pos c_sb] in H.
    destruct cpc; try discriminate. destruct (n =? 0) eqn:E; [|discriminate].
    apply some_inj in H; subst r'; eapply place_inv; eauto; intros.
    destruct (s_dead m) eqn:D; cbn [cinv]; auto.
Qed.

Lemma run_inv : forall ls r r', ring_inv r -> ring_run ls r = Some r' -> ring_inv r'.
Proof.
  induction ls as [|l ls IH]; cbn [Ring.ring_run]; intros r r' HI H.
  - apply some_inj in H. now subst.
  - destruct (ring_step l r) as [r1|] eqn:E; [|discriminate]. apply (IH r1 r'); auto. apply (step_inv l r r1); auto.
Qed.

(** ** Progress *)

Lemma run_app : forall a b r, ring_run (a ++ b) r = match ring_run a r with Some r' => ring_run b r' | None => None end.
Proof.
  induction a as [|l a IH]; cbn [app Ring.ring_run]; intros; [reflexivity|]. destruct (ring_step l r); auto.
Qed.

(** Neither logging nor exiting. *)
Definition quiet (l : label) : bool := match l with LLog _ | LExit => false | _ => true end.

Definition leads (r r' : ring) := exists ls, ring_run ls r = Some r' /\ forallb quiet ls = true.

Lemma leads_refl : forall r, leads r r.
Proof. intros. exists []. split; reflexivity. Qed.

Lemma leads_trans : forall a b d, leads a b -> leads b d -> leads a d.
Proof.
  intros a b d (l & H & Q) (k & K & Q'). exists (l ++ k). rewrite run_app, H, forallb_app, Q. auto.
Qed.

Lemma leads_step : forall l r r' r'', (if quiet l then ring_step l r = Some r' else False) -> leads r' r'' -> leads r r''.
Proof.
  intros l r r' r'' H (ls & K & Q). destruct (quiet l) eqn:E; [|contradiction].
  exists (l :: ls). cbn [Ring.ring_run forallb]. rewrite H, E. auto.
Qed.

Lemma leads_inv : forall r r', leads r r' -> ring_inv r -> ring_inv r'.
Proof. intros r r' (ls & H & _) HI. eapply run_inv; eauto. Qed.

Lemma flush_producer : forall sb m cons pc pos mn co sent got,
  exists m', leads (Ring m cons (Producer pc pos mn sb) co sent got) (Ring m' cons (Producer pc pos mn []) co sent got).
Proof.
  induction sb as [|w sb IH]; intros.
  - exists m. apply leads_refl.
  - destruct (IH (commit m w) cons pc pos mn co sent got) as (m' & H). exists m'.
    apply (leads_step LCommitP _ (Ring (commit m w) cons (Producer pc pos mn sb) co sent got)); [reflexivity|auto].
Qed.

Lemma flush_consumer : forall csb m cons p cpc c sent got,
  leads (Ring m cons p (Consumer cpc c csb) sent got) (Ring m (last (cons :: csb) 0) p (Consumer cpc c []) sent got).
Proof.
  induction csb as [|v csb IH]; intros.
  - apply leads_refl.
  - change (last (cons :: v :: csb) 0) with (last (v :: csb) 0).
    apply (leads_step LCommitC _ (Ring m v p (Consumer cpc c csb) sent got)); [reflexivity|auto].
Qed.

Lemma stale_last : forall r, ring_inv r -> last (r_cons r :: c_sb (r_c r)) 0 = c_pos (r_c r).
Proof.
  intros r (_ & f & _ & _ & _ & _ & (l1 & l2 & A & B & C & _) & _). rewrite A.
  clear A. induction l1 as [|x l1 IH]; [exact C|]. cbn [app].
  destruct (l1 ++ l2) eqn:E; [destruct l1, l2; try discriminate; contradiction|]. exact IH.
Qed.

Lemma read_all : forall j m cons p n k acc c csb sent got, (k = length acc + j)%nat ->
  exists got', leads (Ring m cons p (Consumer (CRead n k acc) c csb) sent got)
                     (Ring m cons p (Consumer (CHave (n - Z.of_nat k)) (c + Z.of_nat k) (csb ++ [c + Z.of_nat k])) sent got').
Proof.
  induction j as [|j IH]; intros.
  - exists (got ++ acc). eapply (leads_step LConsumer); [|apply leads_refl].
    cbn [quiet Ring.ring_step r_mem r_cons r_p r_c r_sent r_got]. unfold consumer_step. cbn [c_pc c_pos c_sb].
    destruct (length acc <? k)%nat eqn:E; [apply Nat.ltb_lt in E; lia|]. reflexivity.
  - destruct (IH m cons p n k (acc ++ [s_data m (c + zlen acc)]) c csb sent got) as (got' & H').
    { rewrite app_length. cbn [length]. lia. }
    exists got'. eapply (leads_step LConsumer); [|exact H'].
    cbn [quiet Ring.ring_step r_mem r_cons r_p r_c r_sent r_got]. unfold consumer_step. cbn [c_pc c_pos c_sb].
    destruct (length acc <? k)%nat eqn:E; [|apply Nat.ltb_ge in E; lia]. now rewrite app_nil_r.
Qed.

(** Take all there is and make it known. *)
Lemma take_all : forall m cons p n c sent got, 0 <= n ->
  exists got', leads (Ring m cons p (Consumer (CHave n) c []) sent got) (Ring m (if n =? 0 then cons else c + n) p (Consumer (CHave 0) (c + n) []) sent got').
Proof.
  intros. destruct (n =? 0) eqn:E.
  - exists got. apply Z.eqb_eq in E. subst n. rewrite Z.add_0_r. apply leads_refl.
  - destruct (read_all (Z.to_nat n) m cons p n (Z.to_nat n) [] c [] sent got) as (got' & HR); [reflexivity|].
    exists got'. rewrite Z2Nat.id in HR by lia. rewrite Z.sub_diag in HR.
    eapply (leads_step (LTake (Z.to_nat n))); [|eapply leads_trans; [exact HR|apply flush_consumer]].
    cbn [quiet Ring.ring_step r_c c_pc c_pos c_sb r_mem r_cons r_p r_sent r_got].
    rewrite Z2Nat.id by lia. replace (0 <? n) with true by lia. replace (n <=? n) with true by lia. reflexivity.
Qed.

Definition at_rest (pc : cpc) := match pc with CIdle | CHave _ => True | _ => False end.

(** One look at the buffer, with all stores in memory. *)
Lemma look : forall m p cpc c sent got, at_rest cpc ->
  ring_inv (Ring m c p (Consumer cpc c []) sent got) ->
  exists got',
    leads (Ring m c p (Consumer cpc c []) sent got)
          (let c' := if (s_pos m <? c) && (0 <? s_end m - c) then s_end m else s_pos m in
           Ring m c' p (Consumer (CHave 0) c' []) sent got').
Proof.
  intros m p cpc c sent got HR HI.
  assert (HV : view_ok sent got c m).
  { destruct HI as (_ & f & HC & HV & _). cbn [r_sent r_got r_c c_pos r_mem r_p] in *. eapply chain_head; eauto. }
  assert (Hc : 0 <= c) by (destruct HI as (H0 & _); exact H0).
  destruct HV as (V1 & V2 & V3).
  assert (S1 : ring_step LPeek (Ring m c p (Consumer cpc c []) sent got) = Some (Ring m c p (Consumer (CPeek (s_pos m)) c []) sent got)).
  { destruct cpc; try contradiction; reflexivity. }
  assert (Z : forall n, (if n =? 0 then c else c + n) = c + n) by (intros; destruct (n =? 0) eqn:E; lia).
  destruct (s_pos m <? c) eqn:E; cbn [andb].
  - assert (E0 := E). apply Z.ltb_lt in E0. destruct (V3 E0) as (V4 & _).
    destruct (0 <? s_end m - c) eqn:E'.
    + destruct (take_all m c p (s_end m - c) c sent got) as (got' & HT); [lia|].
      exists got'. rewrite Z in HT. replace (c + (s_end m - c)) with (s_end m) in HT by lia.
      eapply (leads_step LPeek); [exact S1|]. eapply (leads_step LConsumer); [|exact HT].
      cbn [quiet Ring.ring_step r_mem r_cons r_p r_c r_sent r_got]. unfold consumer_step. cbn [c_pc c_pos c_sb].
      rewrite E. rewrite SIZE_u64 by lia. rewrite E'. now rewrite app_nil_r.
    + destruct (take_all m 0 p (s_pos m) 0 sent got) as (got' & HT); [lia|].
      exists got'. replace (if s_pos m =? 0 then 0 else 0 + s_pos m) with (s_pos m) in HT by (destruct (s_pos m =? 0) eqn:X; lia).
      rewrite Z.add_0_l in HT.
      eapply (leads_step LPeek); [exact S1|]. eapply (leads_step LConsumer); [|].
      { cbn [quiet Ring.ring_step r_mem r_cons r_p r_c r_sent r_got]. unfold consumer_step. cbn [c_pc c_pos c_sb].
        rewrite E. rewrite SIZE_u64 by lia. rewrite E'. rewrite app_nil_r. reflexivity. }
      eapply (leads_step LConsumer); [|].
      { cbn [quiet Ring.ring_step r_mem r_cons r_p r_c r_sent r_got]. unfold consumer_step. cbn [c_pc c_pos c_sb].
        rewrite SIZE_u64 by lia. rewrite app_nil_r. reflexivity. }
      eapply leads_trans; [apply flush_consumer|]. exact HT.
  - apply Z.ltb_ge in E. destruct (take_all m c p (s_pos m - c) c sent got) as (got' & HT); [lia|].
    exists got'. rewrite Z in HT. replace (c + (s_pos m - c)) with (s_pos m) in HT by lia.
    eapply (leads_step LPeek); [exact S1|]. eapply (leads_step LConsumer); [|exact HT].
    cbn [quiet Ring.ring_step r_mem r_cons r_p r_c r_sent r_got]. unfold consumer_step. cbn [c_pc c_pos c_sb].
    replace (s_pos m <? c) with false by lia. rewrite SIZE_u64 by lia. now rewrite app_nil_r.
Qed.

(** The consumer completes what it was doing. *)
Lemma come_to_rest : forall m cons p cpc c csb sent got,
  ring_inv (Ring m cons p (Consumer cpc c csb) sent got) -> p_pc p <> PExit -> p_sb p = [] ->
  exists cons' cpc' c' csb' got', at_rest cpc' /\
    leads (Ring m cons p (Consumer cpc c csb) sent got) (Ring m cons' p (Consumer cpc' c' csb') sent got').
Proof.
  intros m cons p cpc c csb sent got HI HP HB.
  assert (HD : s_dead m = false).
  { destruct HI as (_ & f & HC & _ & _ & (_ & _ & _ & D & _) & _). cbn [r_p r_mem r_sent r_got r_c] in *. rewrite HB in HC.
    cbn [chain] in HC. subst f. destruct (s_dead m); auto. specialize (D eq_refl). contradiction. }
  assert (HRoll : forall cp, exists cons' cpc' c' csb' got', at_rest cpc' /\
    leads (Ring m cons p (Consumer (CRoll cp) c csb) sent got) (Ring m cons' p (Consumer cpc' c' csb') sent got')).
  { intros. do 5 eexists. split; [|eapply (leads_step LConsumer); [|apply leads_refl]].
    2:{ cbn [quiet Ring.ring_step r_mem r_cons r_p r_c r_sent r_got]. unfold consumer_step. cbn [c_pc c_pos c_sb]. reflexivity. }
    exact I. }
  destruct cpc as [|cp|cp|n|n k acc| |].
  - exists cons, CIdle, c, csb, got. split; [exact I|apply leads_refl].
  - destruct (cp <? c) eqn:E.
    + destruct (0 <? to_u 64 (s_end m - c)) eqn:E'.
      * do 5 eexists. split; [|eapply (leads_step LConsumer); [|apply leads_refl]].
        2:{ cbn [quiet Ring.ring_step r_mem r_cons r_p r_c r_sent r_got]. unfold consumer_step. cbn [c_pc c_pos c_sb]. rewrite E, E'. reflexivity. }
        exact I.
      * destruct (HRoll cp) as (a1 & a2 & a3 & a4 & a5 & A & B). exists a1, a2, a3, a4, a5. split; auto.
        eapply (leads_step LConsumer); [|exact B].
        cbn [quiet Ring.ring_step r_mem r_cons r_p r_c r_sent r_got]. unfold consumer_step. cbn [c_pc c_pos c_sb]. rewrite E, E'. now rewrite app_nil_r.
    + do 5 eexists. split; [|eapply (leads_step LConsumer); [|apply leads_refl]].
      2:{ cbn [quiet Ring.ring_step r_mem r_cons r_p r_c r_sent r_got]. unfold consumer_step. cbn [c_pc c_pos c_sb]. rewrite E. reflexivity. }
      exact I.
  - apply HRoll.
  - exists cons, (CHave n), c, csb, got. split; [exact I|apply leads_refl].
  - assert (HK : (length acc <= k)%nat).
    { destruct HI as (_ & f & _ & _ & _ & _ & _ & HK). cbn [r_c c_pc cinv] in HK. tauto. }
    destruct (read_all (k - length acc) m cons p n k acc c csb sent got) as (got' & HR); [lia|].
    do 5 eexists. split; [|exact HR]. exact I.
  - exfalso. destruct HI as (_ & f & _ & _ & _ & _ & _ & HK). cbn [r_c c_pc cinv r_mem] in HK. congruence.
  - exfalso. destruct HI as (_ & f & _ & _ & _ & _ & _ & HK). cbn [r_c c_pc cinv r_mem] in HK. destruct HK. congruence.
Qed.

(** All of the producer's stores are in memory, everything has been consumed and the
    producer can know. *)
Lemma drain : forall r, ring_inv r -> p_pc (r_p r) <> PExit ->
  exists m got',
    leads r (Ring m (p_pos (r_p r)) (Producer (p_pc (r_p r)) (p_pos (r_p r)) (p_min (r_p r)) []) (Consumer (CHave 0) (p_pos (r_p r)) []) (r_sent r) got').
Proof.
  intros [m cons [pc pos mn sb] [cpc c csb] sent got] HI HP. cbn [r_p p_pc p_pos p_min r_sent] in *.
  destruct (flush_producer sb m cons pc pos mn (Consumer cpc c csb) sent got) as (m1 & L1).
  assert (I1 := leads_inv _ _ L1 HI).
  destruct (come_to_rest _ _ _ _ _ _ _ _ I1 HP eq_refl) as (cons2 & cpc2 & c2 & csb2 & got2 & R2 & L2).
  assert (I2 := leads_inv _ _ L2 I1).
  pose proof (flush_consumer csb2 m1 cons2 (Producer pc pos mn []) cpc2 c2 sent got2) as L3.
  assert (E3 := stale_last _ I2). cbn [r_cons r_c c_sb c_pos] in E3. rewrite E3 in L3.
  assert (I3 := leads_inv _ _ L3 I2).
  destruct (look _ _ _ _ _ _ R2 I3) as (got4 & L4). cbv zeta in L4.
  assert (I4 := leads_inv _ _ L4 I3).
  assert (EM : forall c co sent got, ring_inv (Ring m1 c (Producer pc pos mn []) co sent got) -> s_pos m1 = pos /\ 0 <= s_pos m1).
  { intros c0 co0 sent0 got0 (_ & f & HC & (V & _) & _ & (_ & _ & D & _) & _). cbn [r_p r_mem p_sb chain] in *. subst f. cbn [p_pos] in D. lia. }
  destruct (EM _ _ _ _ I4) as (EP & E0).
  destruct ((s_pos m1 <? c2) && (0 <? s_end m1 - c2)) eqn:E.
  - destruct (look _ _ (CHave 0) _ _ _ I I4) as (got5 & L5). cbv zeta in L5.
    rewrite Z.sub_diag, Z.ltb_irrefl, andb_false_r in L5. rewrite EP in L5.
    exists m1, got5. eapply leads_trans; [exact L1|]. eapply leads_trans; [exact L2|]. eapply leads_trans; [exact L3|].
    eapply leads_trans; [exact L4|exact L5].
  - rewrite EP in L4. exists m1, got4. eapply leads_trans; [exact L1|]. eapply leads_trans; [exact L2|]. eapply leads_trans; [exact L3|exact L4].
Qed.

Ltac pstep := cbn [quiet Ring.ring_step r_mem r_cons r_p r_c r_sent r_got]; unfold Ring.producer_step; cbn [p_pc p_pos p_min p_sb].

(** A reservation smaller than the buffer gets its space. *)
Lemma reserve_progress : forall r bs, ring_inv r -> p_pc (r_p r) = PTest bs -> zlen bs < SIZE ->
  exists r', leads r r' /\ p_pc (r_p r') = PWrite bs 0.
Proof.
  intros r bs HI HP Hn.
  destruct (drain r HI) as (m & got & L1); [congruence|]. assert (I1 := leads_inv _ _ L1 HI).
  rewrite HP in *. set (pos := p_pos (r_p r)) in *. set (mn := p_min (r_p r)) in *. set (sent := r_sent r) in *.
  cut (exists r', leads (Ring m pos (Producer (PTest bs) pos mn []) (Consumer (CHave 0) pos []) sent got) r' /\ p_pc (r_p r') = PWrite bs 0).
  { intros (r' & A & B). exists r'. split; auto. eapply leads_trans; eauto. }
  clear L1 HP HI. clearbody pos mn sent. clear r.
  destruct (zlen bs <? mn) eqn:E1.
  { eexists. split; [eapply (leads_step LProducer); [pstep; rewrite E1; reflexivity|apply leads_refl]|reflexivity]. }
  destruct (zlen bs <? SIZE - pos) eqn:E2.
  { eexists. split; [eapply (leads_step LProducer); [pstep; rewrite E1, Z.leb_refl, E2; reflexivity|apply leads_refl]|reflexivity]. }
  assert (P0 : 0 <= pos) by (destruct I1 as (H0 & _); exact H0).
  assert (PN : pos <> 0) by lia.
  (* wrap around, then look once more *)
  set (r1 := Ring m pos (Producer (PTest bs) 0 pos [WEnd pos; WPos 0]) (Consumer (CHave 0) pos []) (sent ++ [] ++ [] ++ []) got).
  assert (L2 : leads (Ring m pos (Producer (PTest bs) pos mn []) (Consumer (CHave 0) pos []) sent got) r1).
  { eapply (leads_step LProducer); [pstep; rewrite E1, Z.leb_refl, E2; reflexivity|].
    eapply (leads_step LProducer); [pstep; replace (pos =? 0) with false by lia; reflexivity|].
    eapply (leads_step LProducer); [pstep; reflexivity|]. unfold r1. rewrite !app_nil_r. cbn [app]. apply leads_refl. }
  assert (I2 := leads_inv _ _ L2 I1). 
  set (m2 := commit (commit m (WEnd pos)) (WPos 0)).
  set (r2 := Ring m2 pos (Producer (PTest bs) 0 pos []) (Consumer (CHave 0) pos []) (sent ++ [] ++ [] ++ []) got).
  assert (L3 : leads r1 r2).
  { eapply (leads_step LCommitP); [reflexivity|]. eapply (leads_step LCommitP); [reflexivity|]. apply leads_refl. }
  assert (I3 := leads_inv _ _ L3 I2).
  destruct (look _ _ (CHave 0) _ _ _ I I3) as (got3 & L4). cbv zeta in L4.
  replace (s_pos m2) with 0 in L4 by reflexivity. replace (s_end m2) with pos in L4 by reflexivity.
  rewrite Z.sub_diag, Z.ltb_irrefl, andb_false_r in L4.
  destruct (zlen bs <? pos) eqn:E3.
  - eexists. split; [eapply leads_trans; [exact L2|]; eapply leads_trans; [exact L3|];
      eapply (leads_step LProducer); [unfold r2; pstep; rewrite E3; reflexivity|apply leads_refl]|reflexivity].
  - eexists. split; [eapply leads_trans; [exact L2|]; eapply leads_trans; [exact L3|]; eapply leads_trans; [exact L4|];
      eapply (leads_step LProducer); [pstep; rewrite E3|apply leads_refl]|].
    + replace (0 <=? 0) with true by reflexivity. rewrite Z.sub_0_r. replace (zlen bs <? SIZE) with true by lia. reflexivity.
    + reflexivity.
Qed.

End Proofs.
