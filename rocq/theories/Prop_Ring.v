(** C25-C28: the staging buffer, for every interleaving under x86-TSO and every
    buffer size. *)
From Verif Require Import Base BaseProofs DecodeProofs Ring RingProofs.

Ltac Zify.zify_post_hook ::= Z.div_mod_to_equations.

(** ** Specification *)

(** [r] is reached from an empty buffer of [size] bytes by the steps [ls]. *)
Definition reached (size : Z) (ls : list label) (r : ring) : Prop := ring_run size ls (new_ring size) = Some r.

(** The messages the thread logged, in order. *)
Fixpoint logged (ls : list label) : list (list Z) :=
  match ls with
  | [] => []
  | LLog bs :: ls' => bs :: logged ls'
  | _ :: ls' => logged ls'
  end.

(** The one it has not finished. *)
Definition unfinished (pc : ppc) : list (list Z) :=
  match pc with
  | PIdle | PExit => []
  | PTest bs | PEnd bs _ | PWrap bs _ | PWrite bs _ => [bs]
  end.

(** The number of bytes peek returned that are not consumed yet. *)
Definition handed (pc : cpc) : option Z :=
  match pc with
  | CHave n => Some n
  | CRead n _ _ => Some n
  | _ => None
  end.

(** An address with a byte that was, or may have been, recorded and is not consumed. *)
Definition unread (size : Z) (r : ring) (a : Z) : Prop :=
  let c := c_pos (r_c r) in let p := p_pos (r_p r) in
  if p <? c then 0 <= a < p \/ c <= a < size else c <= a < p.

(** ** Properties *)

Lemma logged_app : forall a b, logged (a ++ b) = logged a ++ logged b.
Proof.
  induction a as [|l a IH]; intros; [reflexivity|]. cbn [app logged]. destruct l; rewrite ?IH; reflexivity.
Qed.

Lemma run_logged : forall size ls r r', ring_run size ls r = Some r' ->
  r_sent r ++ unfinished (p_pc (r_p r)) ++ logged ls = r_sent r' ++ unfinished (p_pc (r_p r')).
Proof.
  induction ls as [|l ls IH]; intros r r' H.
  - cbn in H. apply some_inj in H. subst. cbn [logged]. now rewrite app_nil_r.
  - cbn [ring_run] in H. destruct (ring_step size l r) as [r1|] eqn:E; [|discriminate]. rewrite <- (IH _ _ H). clear IH H r'.
    destruct r as [m cons [pc pos mn sb] [cp c csb] sent got].
    destruct l; cbn [ring_step r_mem r_cons r_p r_c r_sent r_got p_pc p_pos p_min p_sb c_pc c_pos c_sb logged] in *.
    + destruct pc; try discriminate. apply some_inj in E. subst. reflexivity.
    + destruct pc; try discriminate. apply some_inj in E. subst. reflexivity.
    + unfold producer_step in E. cbn [p_pc p_pos p_min p_sb] in E.
      destruct pc; try discriminate.
      * destruct (zlen bs <? mn); [|destruct (cons <=? pos); [destruct (zlen bs <? size - pos)|]];
          apply some_inj in E; subst; cbn [r_sent r_p p_pc unfinished]; now rewrite app_nil_r.
      * apply some_inj in E; subst; cbn [r_sent r_p p_pc unfinished]. rewrite app_nil_r. destruct (c0 =? 0); reflexivity.
      * apply some_inj in E; subst; cbn [r_sent r_p p_pc unfinished]. now rewrite app_nil_r.
      * destruct (nth_error bs k); apply some_inj in E; subst; cbn [r_sent r_p p_pc unfinished].
        -- now rewrite app_nil_r.
        -- now rewrite <- app_assoc.
    + destruct sb; [discriminate|]. apply some_inj in E. subst. reflexivity.
    + unfold consumer_step in E. destruct cp; cbn [c_pc c_pos c_sb] in E; try discriminate.
      * destruct (cached <? c); [destruct (0 <? to_u 64 (s_end m - c))|]; apply some_inj in E; subst; reflexivity.
      * apply some_inj in E; subst; reflexivity.
      * destruct (length acc <? k)%nat; apply some_inj in E; subst; reflexivity.
      * apply some_inj in E; subst; reflexivity.
    + destruct csb; [discriminate|]. apply some_inj in E. subst. reflexivity.
    + destruct cp; try discriminate; apply some_inj in E; subst; reflexivity.
    + destruct cp; try discriminate. destruct ((0 <? Z.of_nat k) && (Z.of_nat k <=? n)); [|discriminate].
      apply some_inj in E; subst; reflexivity.
    + destruct cp; try discriminate. destruct (n =? 0); [|discriminate].
      apply some_inj in E; subst; reflexivity.
Qed.

Lemma reached_inv : forall size ls r, 1 <= size < 2 ^ 63 -> reached size ls r -> ring_inv size r.
Proof. intros. eapply run_inv; eauto. now apply new_ring_inv. Qed.

(** C25.  What is consumed is a prefix of what was logged, in order; what peek returns
    extends it to a whole number of messages; when the positions meet, everything
    finished has been consumed. *)
Theorem C25_fifo : forall size ls r,
  1 <= size < 2 ^ 63 -> reached size ls r ->
  logged ls = r_sent r ++ unfinished (p_pc (r_p r)) /\
  (exists rest, concat (r_sent r) = r_got r ++ rest) /\
  (forall n, handed (c_pc (r_c r)) = Some n ->
     exists j, r_got r ++ load (s_data (r_mem r)) (c_pos (r_c r)) (Z.to_nat n) = concat (firstn j (r_sent r))) /\
  (p_sb (r_p r) = [] -> c_pos (r_c r) = s_pos (r_mem r) -> r_got r = concat (r_sent r)).
Proof.
  intros size ls r HS HR. assert (HI := reached_inv _ _ _ HS HR).
  apply run_logged in HR. cbn [r_sent new_ring r_p p_pc unfinished app] in HR.
  destruct HI as (H0 & f & HC & HV & HT & HP & HSI & HK).
  split; [exact HR|]. split; [eauto|]. split.
  - intros n Hn. destruct (c_pc (r_c r)); try discriminate; cbn [handed] in Hn; apply some_inj in Hn; subst; cbn [cinv] in HK; tauto.
  - intros HB HE. rewrite HB in HC. cbn [chain] in HC. rewrite <- HC in HT. rewrite HT, HE.
    unfold content. rewrite Z.ltb_irrefl, Z.sub_diag. now rewrite ld_nil, app_nil_r by lia.
Qed.

Lemma chain_races : forall size sb sent got c m f, chain size sent got c m sb f ->
  forall a b, In (WData a b) sb -> a < c \/ lim c m <= a.
Proof.
  induction sb as [|w sb IH]; cbn [chain]; intros sent got c m f H a b HIn; [contradiction|].
  destruct H as (A & B & C & D & E). destruct HIn as [-> | HIn].
  - destruct C as (C & C'). unfold lim. destruct (s_pos m <? c) eqn:X; [apply Z.ltb_lt in X; auto|lia].
  - destruct (IH _ _ _ _ _ E _ _ HIn); auto. apply lim_later in D. lia.
Qed.

(** C26.  The space handed out for a message lies inside the buffer, the assertions of
    finishReservation hold, nothing in it is unread, and no store to it that
    is still under way can change what the consumer is reading. *)
Theorem C26_no_overwrite : forall size ls r bs k,
  1 <= size < 2 ^ 63 -> reached size ls r -> p_pc (r_p r) = PWrite bs k ->
  0 <= p_pos (r_p r) /\ p_pos (r_p r) + zlen bs < size /\ zlen bs < p_min (r_p r) /\
  (forall a, p_pos (r_p r) <= a < p_pos (r_p r) + zlen bs -> ~ unread size r a).
Proof.
  intros size ls r bs k HS HR HW. assert (HI := reached_inv _ _ _ HS HR).
  destruct HI as (H0 & f & HC & HV & HT & HP & HSI & HK).
  destruct HP as (P1 & P2 & P3 & P4 & P5). rewrite HW in P5. destruct P5 as (A & B & C).
  assert (V0 := proj1 HV). assert (Hz := zlen_nonneg _ bs). splits; try lia.
  intros a Ha. unfold unread. destruct (p_pos (r_p r) <? c_pos (r_c r)) eqn:E; [|lia].
  apply Z.ltb_lt in E. apply (sinv_last _ _ _ _ _ HSI) in E. lia.
Qed.

Theorem C26_no_race : forall size ls r n a b,
  1 <= size < 2 ^ 63 -> reached size ls r -> handed (c_pc (r_c r)) = Some n -> In (WData a b) (p_sb (r_p r)) ->
  ~ c_pos (r_c r) <= a < c_pos (r_c r) + n.
Proof.
  intros size ls r n a b HS HR Hn HIn. assert (HI := reached_inv _ _ _ HS HR).
  destruct HI as (H0 & f & HC & HV & HT & HP & HSI & HK).
  pose proof (chain_races _ _ _ _ _ _ _ HC _ _ HIn) as HX.
  assert (c_pos (r_c r) + n <= lim (c_pos (r_c r)) (r_mem r)).
  { destruct (c_pc (r_c r)); try discriminate; cbn [handed] in Hn; apply some_inj in Hn; subst; cbn [cinv] in HK; tauto. }
  lia.
Qed.

(** C27.  From every state in which a message smaller than the buffer waits for space,
    the compression thread catching up leads to having the space: there is a way
    there in which the thread does nothing but wait.  A message at least as large as the
    buffer never gets there. *)
Theorem C27_progress : forall size ls r bs,
  1 <= size < 2 ^ 63 -> reached size ls r -> p_pc (r_p r) = PTest bs -> zlen bs < size ->
  exists ls' r', ring_run size ls' r = Some r' /\ p_pc (r_p r') = PWrite bs 0 /\
    forall l, In l ls' -> match l with LLog _ | LExit => False | _ => True end.
Proof.
  intros size ls r bs HS HR HP Hn. assert (HI := reached_inv _ _ _ HS HR).
  destruct (reserve_progress size HS r bs HI HP Hn) as (r' & (ls' & HL & HQ) & HW). exists ls', r'. splits; auto.
  intros l Hl. rewrite forallb_forall in HQ. specialize (HQ l Hl). destruct l; auto; discriminate.
Qed.

Theorem C27_too_large : forall size ls r bs k,
  1 <= size < 2 ^ 63 -> reached size ls r -> p_pc (r_p r) = PWrite bs k -> zlen bs < size.
Proof.
  intros size ls r bs k HS HR HW. destruct (C26_no_overwrite _ _ _ _ _ HS HR HW) as (A & B & _). lia.
Qed.

(** So it waits for ever. *)
Theorem C27_too_large_waits : forall size ls r bs ls' r',
  1 <= size < 2 ^ 63 -> reached size ls r -> p_pc (r_p r) = PTest bs -> size <= zlen bs ->
  ring_run size ls' r = Some r' -> r_sent r' = r_sent r.
Proof.
  intros size ls r bs ls' r' HS HR HP Hn.
  assert (HT : unfinished (p_pc (r_p r)) = [bs]) by now rewrite HP. clear HP.
  revert ls r HR HT. induction ls' as [|l ls' IH]; intros ls r HR HT H.
  - cbn in H. apply some_inj in H. now subst.
  - cbn [ring_run] in H. destruct (ring_step size l r) as [r1|] eqn:E; [|discriminate].
    assert (HR1 : reached size (ls ++ [l]) r1).
    { unfold reached in *. rewrite run_app, HR. cbn [ring_run]. now rewrite E. }
    assert (X := reached_inv _ _ _ HS HR).
    cut (unfinished (p_pc (r_p r1)) = [bs] /\ r_sent r1 = r_sent r).
    { intros (A & B). rewrite <- B. exact (IH _ _ HR1 A H). }
    clear IH H HR1.
    destruct r as [m cons [pc pos mn sb] [cp c csb] sent got].
    destruct l; cbn [ring_step r_mem r_cons r_p r_c r_sent r_got p_pc p_pos p_min p_sb c_pc c_pos c_sb] in *.
    + destruct pc; try discriminate.
    + destruct pc; try discriminate.
    + unfold producer_step in E. cbn [p_pc p_pos p_min p_sb] in E.
      destruct pc; try discriminate; cbn [unfinished] in HT; injection HT as ->.
      * destruct (zlen bs <? mn); [|destruct (cons <=? pos); [destruct (zlen bs <? size - pos)|]];
          apply some_inj in E; subst; cbn [r_sent r_p p_pc unfinished]; now rewrite app_nil_r.
      * apply some_inj in E; subst; cbn [r_sent r_p p_pc unfinished]. rewrite app_nil_r. destruct (c0 =? 0); auto.
      * apply some_inj in E; subst; cbn [r_sent r_p p_pc unfinished]. now rewrite app_nil_r.
      * exfalso. pose proof (C27_too_large size ls _ bs k HS HR eq_refl). lia.
    + destruct sb; [discriminate|]. apply some_inj in E. subst. auto.
    + destruct (consumer_step (Consumer cp c csb) m) as [[c' bs']|]; [|discriminate]. apply some_inj in E. subst. auto.
    + destruct csb; [discriminate|]. apply some_inj in E. subst. auto.
    + destruct cp; try discriminate; apply some_inj in E; subst; auto.
    + destruct cp; try discriminate. destruct ((0 <? Z.of_nat k) && (Z.of_nat k <=? n)); [|discriminate].
      apply some_inj in E; subst; auto.
    + destruct cp; try discriminate. destruct (n =? 0); [|discriminate].
      apply some_inj in E; subst; auto.
Qed.

(** C28.  When the buffer is deleted, the thread has exited, none of its stores is under way
    and every message it logged has been consumed; and nothing more happens to
    the buffer but the consumer's own last stores to it. *)
Theorem C28_deletion : forall size ls r,
  1 <= size < 2 ^ 63 -> reached size ls r -> c_pc (r_c r) = CDeleted ->
  p_pc (r_p r) = PExit /\ p_sb (r_p r) = [] /\ r_got r = concat (logged ls) /\
  forall l r', ring_step size l r = Some r' -> l = LCommitC.
Proof.
  intros size ls r HS HR HD. assert (HI := reached_inv _ _ _ HS HR).
  apply run_logged in HR. cbn [r_sent new_ring r_p p_pc unfinished app] in HR.
  destruct HI as (H0 & f & HC & HV & HT & HP & HSI & HK). rewrite HD in HK. destruct HK as (K1 & K2).
  destruct (chain_dead _ _ _ _ _ _ _ HC K1) as (EB & EF). rewrite <- EF in HP.
  destruct HP as (P1 & P2 & P3 & P4 & P5). specialize (P4 K1).
  rewrite P4 in HR. cbn [unfinished] in HR. rewrite app_nil_r in HR. splits; auto; [congruence|].
  intros l r' H. destruct l; cbn [ring_step] in H; auto; exfalso.
  - rewrite P4 in H. discriminate.
  - rewrite P4 in H. discriminate.
  - unfold producer_step in H. rewrite P4 in H. discriminate.
  - rewrite EB in H. discriminate.
  - unfold consumer_step in H. rewrite HD in H. discriminate.
  - rewrite HD in H. discriminate.
  - rewrite HD in H. discriminate.
  - rewrite HD in H. discriminate.
Qed.

(** ** Examples: a buffer of eight bytes *)

Definition rep (n : nat) (l : label) := repeat l n.
Definition say (bs : list Z) := LLog bs :: rep (2 + length bs) LProducer.
Definition look_take (k : nat) := [LPeek; LConsumer; LTake k] ++ rep (S k) LConsumer.

(** Two messages, the first visible before the second; the third wraps around. *)
Definition wrap_run : list label :=
  say [1; 2; 3] ++ rep 4 LCommitP ++ say [4; 5; 6] ++ look_take 3 ++ [LCommitC] ++
  rep 4 LCommitP ++ look_take 3 ++ [LCommitC] ++
  LLog [7; 8; 9] :: rep 3 LProducer ++ rep 5 LProducer ++ rep 6 LCommitP ++ [LPeek; LConsumer].

Example wrap_example :
  match ring_run 8 wrap_run (new_ring 8) with
  | Some r =>
    (r_sent r, r_got r, p_pos (r_p r), c_pc (r_c r)) = ([[1; 2; 3]; [4; 5; 6]; [7; 8; 9]], [1; 2; 3; 4; 5; 6], 3, CRoll 3) /\
    match ring_run 8 ([LConsumer; LTake 3] ++ rep 4 LConsumer) r with
    | Some r' => r_got r' = [1; 2; 3; 4; 5; 6; 7; 8; 9]
    | None => False
    end
  | None => False
  end.
Proof. vm_compute. auto. Qed.

(** A message of six bytes waits while five are unread and two are free ... *)
Definition wait_run : list label := say [1; 2; 3; 4; 5] ++ rep 6 LCommitP ++ [LLog [6; 7; 8; 9; 10; 11]; LProducer; LProducer].

Example wait_example :
  exists r, reached 8 wait_run r /\ p_pc (r_p r) = PTest [6; 7; 8; 9; 10; 11] /\ r_sent r = [[1; 2; 3; 4; 5]] /\
    exists ls' r', ring_run 8 ls' r = Some r' /\ p_pc (r_p r') = PWrite [6; 7; 8; 9; 10; 11] 0.
Proof.
  assert (HP : match ring_run 8 wait_run (new_ring 8) with
               | Some r => p_pc (r_p r) = PTest [6; 7; 8; 9; 10; 11] /\ r_sent r = [[1; 2; 3; 4; 5]]
               | None => False
               end) by (vm_compute; auto).
  destruct (ring_run 8 wait_run (new_ring 8)) as [r|] eqn:E; [|contradiction].
  exists r. split; [exact E|]. split; [apply HP|]. split; [apply HP|].
  destruct (C27_progress 8 wait_run r [6; 7; 8; 9; 10; 11] ltac:(lia) E (proj1 HP) ltac:(reflexivity)) as (ls' & r' & A & B & _).
  eauto.
Qed.

(** A buffer deleted after its thread logged and exited. *)
Example deleted_example :
  match ring_run 8 (say [1; 2] ++ [LExit] ++ rep 4 LCommitP ++ look_take 2 ++ [LCheck; LConsumer]) (new_ring 8) with
  | Some r => (c_pc (r_c r), r_got r, c_sb (r_c r)) = (CDeleted, [1; 2], [2])
  | None => False
  end.
Proof. vm_compute. auto. Qed.

(** While the last message and the exit are on their way, the buffer is kept. *)
Example kept_example :
  match ring_run 8 (say [1; 2] ++ [LExit] ++ rep 2 LCommitP ++ [LPeek; LConsumer; LCheck]) (new_ring 8) with
  | Some r => (p_pc (r_p r), p_sb (r_p r), c_pc (r_c r)) = (PExit, [WPos 2; WDead], CIdle)
  | None => False
  end.
Proof. vm_compute. auto. Qed.

Print Assumptions C25_fifo.
Print Assumptions C26_no_overwrite.
Print Assumptions C26_no_race.
Print Assumptions C27_progress.
Print Assumptions C27_too_large.
Print Assumptions C27_too_large_waits.
Print Assumptions C28_deletion.
