(** Facts about one staging buffer that the running system needs. *)
From Verif Require Import Base BaseProofs FrontFmt Args ArgsProofs DecodeProofs Encoder Wire EncoderProofs Prop_Encoder Ring RingProofs Prop_Ring Runtime.

Ltac Zify.zify_post_hook ::= Z.div_mod_to_equations.

(** ** Bytes *)

Lemma Forall_firstn_in : forall A (P : A -> Prop) n l, Forall P l -> Forall P (firstn n l).
Proof. induction n; intros l H; [constructor|]. destruct H; cbn; constructor; auto. Qed.

Lemma string_bytes_bytes : forall a, wf_arg a -> Forall is_byte (string_bytes a).
Proof.
  intros []; cbn [string_bytes wf_arg]; intros; try constructor; try tauto.
  unfold wbytes. induction buf; cbn [flat_map]; [constructor|]. apply Forall_app. split; [apply le_bytes_is_byte|].
  apply IHbuf. destruct H as (? & H). split; auto. now inversion H.
Qed.

Lemma img_bytes : forall t n a, wf_arg a -> Forall is_byte (img t n a).
Proof.
  intros t n a H. unfold img. destruct (is_string_arg a && negb (t <=? PT_NON_STRING)).
  - apply Forall_app. split; [apply le_bytes_is_byte|]. apply Forall_firstn_in. now apply string_bytes_bytes.
  - destruct a; cbn [obj_bytes wf_arg] in *; try apply le_bytes_is_byte; try tauto.
Qed.

Lemma imgs_bytes : forall ts ns args, Forall wf_arg args -> Forall is_byte (imgs ts ns args).
Proof.
  induction ts as [|t ts IH]; intros [|n ns] [|a args] H; cbn [imgs]; try constructor.
  inversion H; subst. apply Forall_app. split; [now apply img_bytes|auto].
Qed.

Lemma staged_is_bytes : forall s x, staged_ok s x -> Forall is_byte (staged_bytes s x).
Proof.
  intros s x (_ & _ & _ & H & _). unfold staged_bytes. cbv zeta.
  repeat (apply Forall_app; split); try apply le_bytes_is_byte. now apply imgs_bytes.
Qed.

Definition write_ok (w : pwrite) : Prop := match w with WData _ b => is_byte b | _ => True end.

Definition ring_bytes (r : ring) : Prop :=
  mem_bytes (s_data (r_mem r)) /\ Forall write_ok (p_sb (r_p r)) /\ Forall (Forall is_byte) (unfinished (p_pc (r_p r))).

Definition log_bytes (l : label) : Prop := match l with LLog bs => Forall is_byte bs | _ => True end.

Lemma ring_bytes_step : forall size l r r', ring_bytes r -> log_bytes l -> ring_step size l r = Some r' -> ring_bytes r'.
Proof.
  intros size l r r' (A & B & C) HL E. destruct r as [m cons [pc pos mn sb] [cp c csb] sent got].
  unfold ring_bytes in *.
  destruct l; cbn [ring_step r_mem r_cons r_p r_c r_sent r_got p_pc p_pos p_min p_sb c_pc c_pos c_sb log_bytes] in *.
  - destruct pc; try discriminate. apply some_inj in E. subst. cbn. splits; auto.
  - destruct pc; try discriminate. apply some_inj in E. subst. cbn. splits; auto; try (apply Forall_app; split; auto; constructor; cbn; auto).
  - unfold producer_step in E. cbn [p_pc p_pos p_min p_sb] in E.
    destruct pc; try discriminate.
    + destruct (zlen bs <? mn); [|destruct (cons <=? pos); [destruct (zlen bs <? size - pos)|]];
        apply some_inj in E; subst; cbn; splits; auto.
    + apply some_inj in E; subst; cbn. splits; auto; try (apply Forall_app; split; auto; constructor; cbn; auto); try (destruct (c0 =? 0); exact C).
    + apply some_inj in E; subst; cbn. splits; auto; try (apply Forall_app; split; auto; constructor; cbn; auto).
    + destruct (nth_error bs k) eqn:EN; apply some_inj in E; subst; cbn [r_mem r_p p_sb p_pc unfinished]; splits; auto;
        apply Forall_app; split; auto; constructor; cbn [write_ok]; auto.
      cbn [unfinished] in C. inversion C; subst. apply nth_error_In in EN. eapply Forall_forall in H1; eauto.
  - destruct sb as [|w sb]; [discriminate|]. apply some_inj in E. subst. inversion B; subst. cbn [r_mem r_p p_sb p_pc].
    splits; auto. destruct w; cbn [commit s_data]; auto. apply store_bytes; auto.
  - unfold consumer_step in E. destruct cp; cbn [c_pc c_pos c_sb] in E; try discriminate.
    + destruct (cached <? c); [destruct (0 <? to_u 64 (s_end m - c))|]; apply some_inj in E; subst; auto.
    + apply some_inj in E; subst; auto.
    + destruct (length acc <? k)%nat; apply some_inj in E; subst; auto.
    + apply some_inj in E; subst; auto.
  - destruct csb; [discriminate|]. apply some_inj in E. subst. auto.
  - destruct cp; try discriminate; apply some_inj in E; subst; auto.
  - destruct cp; try discriminate. destruct ((0 <? Z.of_nat k) && (Z.of_nat k <=? n)); [|discriminate].
    apply some_inj in E; subst; auto.
  - destruct cp; try discriminate. destruct (n =? 0); [|discriminate].
    apply some_inj in E; subst; auto.
Qed.

(** ** What a step does to the counters *)

(** Steps other than reading. *)
Definition reads (l : label) (r : ring) : bool :=
  match l, c_pc (r_c r) with LConsumer, CRead _ _ _ => true | _, _ => false end.

Lemma step_sent : forall size l r r', ring_step size l r = Some r' ->
  exists x, r_sent r' = r_sent r ++ x /\ (reads l r = false -> r_got r' = r_got r).
Proof.
  intros size l r r' E. destruct r as [m cons [pc pos mn sb] [cp c csb] sent got].
  destruct l; cbn [ring_step r_mem r_cons r_p r_c r_sent r_got p_pc p_pos p_min p_sb c_pc c_pos c_sb reads] in *.
  - destruct pc; try discriminate. apply some_inj in E. subst. exists []. rewrite app_nil_r. auto.
  - destruct pc; try discriminate. apply some_inj in E. subst. exists []. rewrite app_nil_r. auto.
  - destruct (producer_step _ _ _) as [[p' o]|]; [|discriminate]. apply some_inj in E. subst. cbn [r_sent r_got]. eauto.
  - destruct sb as [|w sb]; [discriminate|]. apply some_inj in E. subst. exists []. rewrite app_nil_r. auto.
  - destruct (consumer_step _ _) as [[c' bs]|] eqn:E1; [|discriminate]. apply some_inj in E. subst. cbn [r_sent r_got].
    exists []. rewrite app_nil_r. split; auto. intros H.
    unfold consumer_step in E1. destruct cp; cbn [c_pc c_pos c_sb] in E1; try discriminate.
    + destruct (cached <? c); [destruct (0 <? to_u 64 (s_end m - c))|];
        assert (bs = []) as -> by congruence; now rewrite app_nil_r.
    + assert (bs = []) as -> by congruence; now rewrite app_nil_r.
    + assert (bs = []) as -> by congruence; now rewrite app_nil_r.
  - destruct csb; [discriminate|]. apply some_inj in E. subst. exists []. rewrite app_nil_r. auto.
  - exists []. rewrite app_nil_r. destruct cp; try discriminate; apply some_inj in E; subst; auto.
  - exists []. rewrite app_nil_r. destruct cp; try discriminate. destruct ((0 <? Z.of_nat k) && (Z.of_nat k <=? n)); [|discriminate].
    apply some_inj in E; subst; auto.
  - exists []. rewrite app_nil_r. destruct cp; try discriminate. destruct (n =? 0); [|discriminate].
    apply some_inj in E; subst; auto.
Qed.

(** Reading and consuming [k] bytes. *)
Lemma take_bytes : forall j size m cons p n k acc c csb sent got, (k = length acc + j)%nat -> acc = load (s_data m) c (length acc) ->
  ring_run size (repeat LConsumer (S j)) (Ring m cons p (Consumer (CRead n k acc) c csb) sent got)
  = Some (Ring m cons p (Consumer (CHave (n - Z.of_nat k)) (c + Z.of_nat k) (csb ++ [c + Z.of_nat k])) sent (got ++ load (s_data m) c k)).
Proof.
  induction j as [|j IH]; intros size m cons p n k acc c csb sent got Hk Ha.
  - change (repeat LConsumer 1) with [LConsumer].
    cbn [ring_run Ring.ring_step r_mem r_cons r_p r_c r_sent r_got]. unfold consumer_step. cbn [c_pc c_pos c_sb].
    destruct (length acc <? k)%nat eqn:E; [apply Nat.ltb_lt in E; lia|].
    replace k with (length acc) by lia. rewrite <- Ha. reflexivity.
  - change (repeat LConsumer (S (S j))) with (LConsumer :: repeat LConsumer (S j)).
    cbn [ring_run]. cbn [Ring.ring_step r_mem r_cons r_p r_c r_sent r_got]. unfold consumer_step. cbn [c_pc c_pos c_sb].
    destruct (length acc <? k)%nat eqn:E; [|apply Nat.ltb_ge in E; lia]. rewrite app_nil_r.
    apply IH.
    + rewrite app_length. cbn [length]. lia.
    + rewrite app_length. cbn [length]. rewrite load_app, <- Ha. reflexivity.
Qed.

Lemma take_run : forall size m cons p n k c csb sent got, (0 < k)%nat -> Z.of_nat k <= n ->
  ring_run size (LTake k :: repeat LConsumer (S k)) (Ring m cons p (Consumer (CHave n) c csb) sent got)
  = Some (Ring m cons p (Consumer (CHave (n - Z.of_nat k)) (c + Z.of_nat k) (csb ++ [c + Z.of_nat k])) sent (got ++ load (s_data m) c k)).
Proof.
  intros. cbn [ring_run]. cbn [Ring.ring_step r_mem r_cons r_p r_c r_sent r_got c_pc c_pos c_sb].
  replace (0 <? Z.of_nat k) with true by lia. replace (Z.of_nat k <=? n) with true by lia. cbn [andb].
  exact (take_bytes k size m cons p n k [] c csb sent got eq_refl eq_refl).
Qed.

(** ** What is visible *)

Definition need (r : ring) (j : nat) : Z := zlen (concat (firstn j (r_sent r))).

Definition seen (r : ring) : Z := zlen (r_got r) + visible_bytes r.

(** What a peek in progress is going to find, against the first [j] messages. *)
Definition peeked (r : ring) (j : nat) : Prop :=
  let c := c_pos (r_c r) in
  match c_pc (r_c r) with
  | CPeek cp => need r j <= zlen (r_got r) + (if cp <? c then (s_end (r_mem r) - c) + cp else cp - c)
  | CRoll cp => need r j <= zlen (r_got r) + cp
  | CHave n => n = 0 -> need r j <= zlen (r_got r)
  | _ => True
  end.

Lemma visible_later : forall c m m', later c m m' -> 0 <= s_pos m' ->
  (if s_pos m <? c then (s_end m - c) + s_pos m else s_pos m - c) <=
  (if s_pos m' <? c then (s_end m' - c) + s_pos m' else s_pos m' - c).
Proof.
  intros c m m' (A & B) H. destruct (s_pos m <? c) eqn:E.
  - apply Z.ltb_lt in E. destruct (A E) as (X1 & X2 & X3 & _). replace (s_pos m' <? c) with true by lia. lia.
  - apply Z.ltb_ge in E. destruct (B E) as (_ & [X | (X & Y)]).
    + replace (s_pos m' <? c) with false by lia. lia.
    + replace (s_pos m' <? c) with true by lia. lia.
Qed.

Section Seen.
Variable SIZE : Z.
Hypothesis SIZE_range : 1 <= SIZE < 2 ^ 63.

Lemma ring_view : forall r, ring_inv SIZE r -> view_ok SIZE (r_sent r) (r_got r) (c_pos (r_c r)) (r_mem r) /\ 0 <= c_pos (r_c r).
Proof. intros r (H0 & f & HC & HV & _). split; auto. eapply chain_head; eauto. Qed.

Lemma seen_step : forall l r r', ring_inv SIZE r -> ring_step SIZE l r = Some r' -> seen r <= seen r'.
Proof.
  intros l r r' HI E. assert (HI' := step_inv SIZE SIZE_range _ _ _ HI E).
  assert (HV := ring_view _ HI). destruct HV as ((V1 & V2 & V3) & V0).
  assert (HV' := ring_view _ HI'). destruct HV' as ((W1 & W2 & W3) & W0). clear HI'.
  unfold seen, visible_bytes. destruct r as [m cons [pc pos mn sb] [cp c csb] sent got].
  destruct l; cbn [Ring.ring_step r_mem r_cons r_p r_c r_sent r_got p_pc p_pos p_min p_sb c_pc c_pos c_sb reads] in *.
  - destruct pc; try discriminate. apply some_inj in E. subst. apply Z.le_refl.
  - destruct pc; try discriminate. apply some_inj in E. subst. apply Z.le_refl.
  - destruct (producer_step _ _ _) as [[p' o]|]; [|discriminate]. apply some_inj in E. subst. apply Z.le_refl.
  - destruct sb as [|w sb]; [discriminate|]. apply some_inj in E. subst. cbn [r_got r_mem r_c c_pos] in *.
    destruct HI as (_ & f & HC & _). cbn [r_sent r_got r_mem r_p p_sb r_c c_pos chain] in HC.
    destruct HC as (_ & _ & _ & HC & _). apply visible_later in HC; lia.
  - destruct HI as (_ & f & HC & HV & HT & HP & HSI & HK). cbn [r_sent r_got r_mem r_p p_sb r_c c_pos c_pc] in HK.
    unfold consumer_step in E. destruct cp; cbn [c_pc c_pos c_sb] in E; try discriminate.
    + destruct (cached <? c); [destruct (0 <? to_u 64 (s_end m - c))|]; apply some_inj in E; subst; cbn [r_got r_mem r_c c_pos];
        rewrite app_nil_r; apply Z.le_refl.
    + apply some_inj in E; subst; cbn [r_got r_mem r_c c_pos]. rewrite app_nil_r. cbn [cinv] in HK. destruct HK as (K1 & K2 & K3 & _).
      replace (s_pos m <? c) with true by lia. replace (s_pos m <? 0) with false by lia. lia.
    + destruct (length acc <? k)%nat eqn:EK; apply some_inj in E; subst; cbn [r_got r_mem r_c c_pos].
      * rewrite app_nil_r. apply Z.le_refl.
      * cbn [cinv] in HK. destruct HK as (K1 & K2 & K3 & K4 & K5 & K6). apply Nat.ltb_ge in EK.
        rewrite zlen_app. assert (zlen acc = Z.of_nat k) by (unfold zlen; lia). unfold lim in K2.
        destruct (s_pos m <? c) eqn:E1; [apply Z.ltb_lt in E1; replace (s_pos m <? c + Z.of_nat k) with true by lia; lia|].
        apply Z.ltb_ge in E1. replace (s_pos m <? c + Z.of_nat k) with false by lia. lia.
    + apply some_inj in E; subst; cbn [r_got r_mem r_c c_pos]; rewrite app_nil_r; apply Z.le_refl.
  - destruct csb; [discriminate|]. apply some_inj in E. subst. apply Z.le_refl.
  - destruct cp; try discriminate; apply some_inj in E; subst; apply Z.le_refl.
  - destruct cp; try discriminate. destruct ((0 <? Z.of_nat k) && (Z.of_nat k <=? n)); [|discriminate].
    apply some_inj in E; subst; apply Z.le_refl.
  - destruct cp; try discriminate. destruct (n =? 0); [|discriminate].
    apply some_inj in E; subst; apply Z.le_refl.
Qed.

Lemma need_step : forall l r r' j, (j <= length (r_sent r))%nat -> ring_step SIZE l r = Some r' -> need r' j = need r j.
Proof.
  intros l r r' j H E. destruct (step_sent _ _ _ _ E) as (x & -> & _) || (destruct (step_sent _ _ _ _ E) as (x & E1 & _); unfold need; rewrite E1).
  rewrite firstn_app. replace (j - length (r_sent r))%nat with 0%nat by lia. cbn [firstn]. now rewrite app_nil_r.
Qed.

Lemma visible_iff : forall r j, visible r j = true <-> (j <= length (r_sent r))%nat /\ need r j <= seen r.
Proof.
  intros. unfold visible, need, seen. rewrite andb_true_iff, Nat.leb_le, Z.leb_le. tauto.
Qed.

Lemma visible_step : forall l r r' j, ring_inv SIZE r -> ring_step SIZE l r = Some r' -> visible r j = true -> visible r' j = true.
Proof.
  intros l r r' j HI E H. apply visible_iff in H. destruct H as [H1 H2]. apply visible_iff.
  destruct (step_sent _ _ _ _ E) as (x & E1 & _). split; [rewrite E1, app_length; lia|].
  rewrite (need_step _ _ _ _ H1 E). pose proof (seen_step _ _ _ HI E). lia.
Qed.

Lemma visible_run : forall ls r r' j, ring_inv SIZE r -> ring_run SIZE ls r = Some r' -> visible r j = true -> visible r' j = true.
Proof.
  induction ls as [|l ls IH]; intros r r' j HI E H; cbn [Ring.ring_run] in E; [apply some_inj in E; now subst|].
  destruct (ring_step SIZE l r) as [r1|] eqn:E1; [|discriminate]. eapply IH; [|exact E|]; [|eapply visible_step; eauto].
  eapply step_inv; eauto.
Qed.

Lemma peeked_start : forall r r' j, ring_step SIZE LPeek r = Some r' -> visible r j = true -> peeked r' j.
Proof.
  intros r r' j E H. apply visible_iff in H. destruct H as [H1 H2]. unfold peeked. rewrite <- (need_step _ _ _ _ H1 E) in H2.
  destruct r as [m cons [pc pos mn sb] [cp c csb] sent got].
  cbn [Ring.ring_step r_mem r_cons r_p r_c r_sent r_got p_pc p_pos p_min p_sb c_pc c_pos c_sb reads] in *.
  destruct cp; try discriminate; apply some_inj in E; subst; exact H2.
Qed.

(** Steps of the thread, or of the consumer inside peek. *)
Definition peeking (l : label) (r : ring) : bool :=
  match l with
  | LPeek | LTake _ | LCheck => false
  | LConsumer => match c_pc (r_c r) with CPeek _ | CRoll _ => true | _ => false end
  | _ => true
  end.

Lemma peeked_step : forall l r r' j, ring_inv SIZE r -> ring_step SIZE l r = Some r' -> peeking l r = true ->
  (j <= length (r_sent r))%nat -> peeked r j -> peeked r' j.
Proof.
  intros l r r' j HI E Hp Hj H. assert (EN := need_step _ _ _ _ Hj E). unfold peeked in *. rewrite EN. clear EN.
  generalize dependent (need r j). intros N H.
  assert (HV := ring_view _ HI). destruct HV as ((V1 & V2 & V3) & V0).
  destruct HI as (_ & f & HC & HV & HT & HP & HSI & HK).
  destruct r as [m cons [pc pos mn sb] [cp c csb] sent got].
  destruct l; cbn [Ring.ring_step r_mem r_cons r_p r_c r_sent r_got p_pc p_pos p_min p_sb c_pc c_pos c_sb peeking] in *; try discriminate.
  - destruct pc; try discriminate. apply some_inj in E. subst. exact H.
  - destruct pc; try discriminate. apply some_inj in E. subst. exact H.
  - destruct (producer_step _ _ _) as [[p' o]|]; [|discriminate]. apply some_inj in E. subst. exact H.
  - destruct sb as [|w sb]; [discriminate|]. apply some_inj in E. subst. cbn [r_got r_mem r_c c_pos c_pc chain] in *.
    destruct HC as (_ & _ & _ & HL & _). destruct cp; auto.
    cbn [cinv] in HK. destruct (cached <? c) eqn:E; auto. apply Z.ltb_lt in E. destruct HK as (_ & HK). destruct (HK E) as (K1 & K2 & _).
    destruct HL as (HL & _). destruct (HL K2) as (_ & L & _). rewrite L. exact H.
  - unfold consumer_step in E. destruct cp; cbn [c_pc c_pos c_sb] in E; try discriminate.
    + cbn [cinv] in HK. destruct (cached <? c) eqn:E1.
      * apply Z.ltb_lt in E1. destruct HK as (_ & HK). destruct (HK E1) as (K1 & K2 & _). destruct (V3 K2) as (V4 & _).
        rewrite (SIZE_u64 SIZE SIZE_range) in E by lia.
        destruct (0 <? s_end m - c) eqn:E2; apply some_inj in E; subst; cbn [r_c c_pc r_got]; rewrite app_nil_r; intros; lia.
      * apply Z.ltb_ge in E1. destruct HK as (HK & _). destruct (HK E1) as (K1 & _).
        pose proof (view_lim SIZE _ _ _ _ (conj V1 (conj V2 V3))).
        rewrite (SIZE_u64 SIZE SIZE_range) in E by lia.
        apply some_inj in E; subst; cbn [r_c c_pc r_got]. rewrite app_nil_r. intros; lia.
    + cbn [cinv] in HK. destruct HK as (K1 & K2 & K3 & _). rewrite (SIZE_u64 SIZE SIZE_range) in E by lia.
      apply some_inj in E; subst; cbn [r_c c_pc r_got]. rewrite app_nil_r. intros; lia.
  - destruct csb; [discriminate|]. apply some_inj in E. subst. exact H.
Qed.
End Seen.
