(** C66, C67: the distributions of the sizes of peeks and of the times threads were
    blocked. *)
From Coq Require Import QArith.
From Verif Require Import Base BaseProofs Chars DecodeProofs Fmt Preproc PreprocProofs LineFmt LineProofs Cycles Ring RingProofs Prop_Ring Prop_Cycles Hist.
Local Open Scope Z_scope.

Ltac Zify.zify_post_hook ::= Z.div_mod_to_equations.

(** ** Specification *)

(** The numbers of bytes found by the peeks of an execution that found some. *)
Fixpoint peek_sizes (size : Z) (ls : list label) (r : ring) : list Z :=
  match ls with
  | [] => []
  | l :: ls' =>
    match ring_step size l r with
    | None => []
    | Some r' =>
      match handed (c_pc (r_c r)), handed (c_pc (r_c r')) with
      | None, Some n => if 0 <? n then [n] else []
      | _, _ => []
      end ++ peek_sizes size ls' r'
    end
  end.

(** How many elements satisfy [f]. *)
Definition number (f : Z -> bool) (l : list Z) : Z := zlen (filter f l).

(** [n] of [size] bytes is at least [a] and less than [b] percent. *)
Definition percent (size a b n : Z) : bool := (a * size <=? 100 * n) && (100 * n <? b * size).

Definition total (l : list Z) : Z := fold_right Z.add 0 l.

(** ** Counting *)

Lemma bump_at_spec : forall bits i d, (i < length d)%nat -> Forall (fun x => 0 <= x < 2 ^ bits - 1) d -> 
  exists d', bump_at bits i d = Some d' /\ length d' = length d /\
    (forall j, nth j d' 0 = nth j d 0 + if Nat.eqb j i then 1 else 0) /\ total d' = total d + 1.
Proof.
  intros bits. induction i as [|i IH]; intros [|x d] L F; cbn [length] in L; try lia.
  - exists (to_u bits (x + 1) :: d). apply Forall_inv in F. cbn [bump_at].
    assert (E : to_u bits (x + 1) = x + 1) by (unfold to_u; apply Z.mod_small; lia).
    splits; auto.
    + intros [|j]; cbn [nth Nat.eqb]; lia.
    + unfold total in *. cbn [fold_right]. lia.
  - destruct (IH d) as (d' & A & B & C & D); [lia|now apply Forall_inv_tail in F|].
    exists (x :: d'). cbn [bump_at]. rewrite A. cbn [option_map length]. splits; auto.
    + intros [|j]; cbn [nth Nat.eqb]; [lia|apply C].
    + unfold total in *. cbn [fold_right]. lia.
Qed.

Fixpoint bumps (bits : Z) (is : list Z) (d : list Z) : option (list Z) :=
  match is with
  | [] => Some d
  | i :: r => match bump bits i d with Some d' => bumps bits r d' | None => None end
  end.

Lemma bumps_spec : forall bits is d, Forall (fun i => 0 <= i < zlen d) is ->
  Forall (fun x => 0 <= x < 2 ^ bits - zlen is) d ->
  exists d', bumps bits is d = Some d' /\ length d' = length d /\
    (forall j, nth j d' 0 = nth j d 0 + number (Z.eqb (Z.of_nat j)) is) /\ total d' = total d + zlen is.
Proof.
  intros bits is. induction is as [|i is IH]; intros d F G.
  - exists d. cbn [bumps]. unfold number, zlen. cbn [filter length]. splits; auto; intros; lia.
  - assert (A := Forall_inv F). cbn beta in A. assert (B := Forall_inv_tail F).
    rewrite zlen_cons in G. pose proof (zlen_nonneg _ is).
    destruct (bump_at_spec bits (Z.to_nat i) d) as (d1 & E & L & N & T).
    + unfold zlen in A. lia.
    + eapply Forall_impl; [|exact G]. cbn beta. intros. lia.
    + destruct (IH d1) as (d' & E' & L' & N' & T').
      * replace (zlen d1) with (zlen d) by (unfold zlen; lia). exact B.
      * rewrite Forall_forall in G |- *. intros x Hx. apply (In_nth _ _ 0) in Hx. destruct Hx as (k & Hk & <-).
        rewrite N. assert (In (nth k d 0) d) by (apply nth_In; lia).
        specialize (G _ H0). cbn beta in G. destruct (Nat.eqb k (Z.to_nat i)); lia.
      * exists d'. cbn [bumps]. unfold bump. destruct (i <? 0) eqn:X; [lia|]. rewrite E, E'.
        splits; auto; try lia.
        -- intros j. rewrite N', N. unfold number. cbn [filter].
           destruct (Nat.eqb j (Z.to_nat i)) eqn:Y; [apply Nat.eqb_eq in Y|apply Nat.eqb_neq in Y];
             destruct (Z.of_nat j =? i) eqn:W; try lia; rewrite ?zlen_cons; lia.
        -- rewrite zlen_cons. lia.
Qed.

Lemma number_ext : forall f g l, (forall x, In x l -> f x = g x) -> number f l = number g l.
Proof. intros. unfold number. now rewrite (filter_ext_in f g). Qed.

Lemma number_map : forall f g l, number f (map g l) = number (fun x => f (g x)) l.
Proof.
  intros f g l. unfold number. induction l as [|x l IH]; [reflexivity|]. cbn [map filter].
  destruct (f (g x)); rewrite ?zlen_cons; lia.
Qed.

Lemma new_dist_ok : forall bits k, k < 2 ^ bits -> Forall (fun x => 0 <= x < 2 ^ bits - k) new_dist.
Proof. intros. unfold new_dist. apply Forall_forall. intros x Hx. apply repeat_spec in Hx. lia. Qed.

(** ** The sizes of peeks *)

(** producerPos never reaches the end of the buffer. *)
Definition below (size : Z) (r : ring) : Prop :=
  s_pos (r_mem r) < size /\ Forall (fun w => match w with WPos v => v < size | _ => True end) (p_sb (r_p r)).

Lemma below_step : forall size l r r', 1 <= size -> ring_inv size r -> below size r -> ring_step size l r = Some r' -> below size r'.
Proof.
  intros size l r r' HS HI (A & B) E.
  destruct HI as (H0 & f & HC & HV & HT & HP & HSI & HK).
  destruct r as [m cons [pc pos mn sb] [cp c csb] sent got].
  cbn [r_mem r_cons r_p r_c r_sent r_got p_pc p_pos p_min p_sb c_pc c_pos c_sb] in *.
  unfold below. destruct l; cbn [ring_step r_mem r_cons r_p r_c r_sent r_got p_pc p_pos p_min p_sb c_pc c_pos c_sb] in E.
  - destruct pc; try discriminate. apply some_inj in E. subst. auto.
  - destruct pc; try discriminate. apply some_inj in E. subst. cbn [r_mem r_p p_sb]. split; auto. apply Forall_app; auto.
  - unfold producer_step in E. cbn [p_pc p_pos p_min p_sb] in E. destruct pc as [|bs|bs v|bs v|bs k|]; try discriminate.
    + destruct (zlen bs <? mn); [|destruct (cons <=? pos); [destruct (zlen bs <? size - pos)|]]; apply some_inj in E; subst; auto.
    + apply some_inj in E. subst. cbn [r_mem r_p p_sb]. split; auto. apply Forall_app; auto.
    + apply some_inj in E. subst. cbn [r_mem r_p p_sb]. split; auto. apply Forall_app. split; auto. constructor; [lia|constructor].
    + destruct (nth_error bs k); apply some_inj in E; subst; cbn [r_mem r_p p_sb]; split; auto; apply Forall_app; split; auto.
      constructor; [|constructor]. destruct HP as (P1 & P2 & P3 & P4 & P5 & P6 & P7). cbn [p_min p_pos p_pc] in *. lia.
  - destruct sb as [|w sb]; [discriminate|]. apply some_inj in E. subst. cbn [r_mem r_p p_sb].
    assert (X := Forall_inv B). assert (Y := Forall_inv_tail B). split; auto. destruct w; cbn [commit s_pos]; auto.
  - destruct (consumer_step _ _) as [[]|]; [|discriminate]. apply some_inj in E. subst. auto.
  - destruct csb; [discriminate|]. apply some_inj in E. subst. auto.
  - destruct cp; try discriminate; apply some_inj in E; subst; auto.
  - destruct cp; try discriminate. destruct (_ && _); [|discriminate]. apply some_inj in E. subst. auto.
  - destruct cp; try discriminate. destruct (_ =? _); [|discriminate]. apply some_inj in E. subst. auto.
Qed.

Lemma handed_below : forall size r n, 1 <= size -> ring_inv size r -> below size r -> handed (c_pc (r_c r)) = Some n -> 0 <= n < size.
Proof.
  intros size r n HS HI (A & _) HN.
  destruct HI as (H0 & f & HC & HV & HT & HP & HSI & HK).
  assert (V : view_ok size (r_sent r) (r_got r) (c_pos (r_c r)) (r_mem r)).
  { destruct (p_sb (r_p r)); cbn [chain] in HC; [rewrite HC; exact HV|tauto]. }
  destruct V as (V1 & _ & V3).
  assert (K : 0 <= n /\ c_pos (r_c r) + n <= lim (c_pos (r_c r)) (r_mem r)).
  { destruct (c_pc (r_c r)); try discriminate; cbn [handed] in HN; apply some_inj in HN; subst; cbn [cinv] in HK; tauto. }
  unfold lim in K. destruct (s_pos (r_mem r) <? c_pos (r_c r)) eqn:X; lia.
Qed.

Lemma peek_end_handed : forall size l r r', ring_step size l r = Some r' ->
  peek_end (c_pc (r_c r)) (c_pc (r_c r')) =
  match handed (c_pc (r_c r)), handed (c_pc (r_c r')) with None, Some n => Some n | _, _ => None end.
Proof.
  intros size l r r' E.
  destruct r as [m cons [pc pos mn sb] [cp c csb] sent got].
  destruct l; cbn [ring_step r_mem r_cons r_p r_c r_sent r_got p_pc p_pos p_min p_sb c_pc c_pos c_sb] in *.
  - destruct pc; try discriminate. apply some_inj in E. subst. cbn [r_c c_pc]. destruct cp; reflexivity.
  - destruct pc; try discriminate. apply some_inj in E. subst. cbn [r_c c_pc]. destruct cp; reflexivity.
  - destruct (producer_step _ _ _) as [[]|]; [|discriminate]. apply some_inj in E. subst. cbn [r_c c_pc]. destruct cp; reflexivity.
  - destruct sb; [discriminate|]. apply some_inj in E. subst. cbn [r_c c_pc]. destruct cp; reflexivity.
  - unfold consumer_step in E. cbn [c_pc c_pos c_sb] in E. destruct cp; try discriminate.
    + destruct (_ <? _); [destruct (_ <? _)|]; apply some_inj in E; subst; reflexivity.
    + apply some_inj in E; subst; reflexivity.
    + destruct (_ <? _)%nat; apply some_inj in E; subst; reflexivity.
    + apply some_inj in E; subst. cbn [r_c c_pc]. destruct (_ =? _); reflexivity.
  - destruct csb; [discriminate|]. apply some_inj in E. subst. cbn [r_c c_pc]. destruct cp; reflexivity.
  - destruct cp; try discriminate; apply some_inj in E; subst; reflexivity.
  - destruct cp; try discriminate. destruct (_ && _); [|discriminate]. apply some_inj in E. subst. reflexivity.
  - destruct cp; try discriminate. destruct (_ =? _); [|discriminate]. apply some_inj in E. subst. cbn [r_c c_pc].
    destruct (s_dead m); reflexivity.
Qed.

Lemma hist_run_bumps : forall size ls r r' d, 1 <= size < 2 ^ 32 -> ring_inv size r -> below size r -> ring_run size ls r = Some r' ->
  Forall (fun n => 0 < n < size) (peek_sizes size ls r) /\
  hist_run size ls r d = option_map (pair r') (bumps 64 (map (fun n => 20 * n / size) (peek_sizes size ls r)) d).
Proof.
  intros size ls. induction ls as [|l ls IH]; intros r r' d HS HI HB E.
  - cbn in E. apply some_inj in E. subst. split; [constructor|reflexivity].
  - cbn [ring_run] in E. cbn [peek_sizes hist_run].
    destruct (ring_step size l r) as [r1|] eqn:ES; [|discriminate].
    assert (HI1 : ring_inv size r1) by (eapply step_inv; eauto; lia).
    assert (HB1 : below size r1) by (eapply below_step; [|exact HI|exact HB|exact ES]; lia).
    rewrite (peek_end_handed _ _ _ _ ES).
    destruct (handed (c_pc (r_c r))); [apply (IH _ _ d HS HI1 HB1 E)|].
    destruct (handed (c_pc (r_c r1))) as [n|] eqn:HN; [|apply (IH _ _ d HS HI1 HB1 E)].
    assert (N := handed_below size r1 n ltac:(lia) HI1 HB1 HN). unfold peek_note.
    destruct (0 <? n) eqn:P; [|apply (IH _ _ d HS HI1 HB1 E)].
    split; [constructor; [lia|apply (IH _ _ d HS HI1 HB1 E)]|].
    replace (to_u 64 (20 * n)) with (20 * n) by (unfold to_u; symmetry; apply Z.mod_small; lia).
    cbn [app map bumps]. destruct (bump 64 (20 * n / size) d) as [d1|]; [apply (IH _ _ d1 HS HI1 HB1 E)|reflexivity].
Qed.

Lemma peek_sizes_length : forall size ls r, zlen (peek_sizes size ls r) <= zlen ls.
Proof.
  intros size. induction ls as [|l ls IH]; intros r; cbn [peek_sizes]; unfold zlen in *; cbn [length]; [lia|].
  destruct (ring_step size l r) as [r'|]; [|cbn [length]; lia].
  specialize (IH r'). rewrite app_length. destruct (handed _); [cbn [length]; lia|]. destruct (handed _) as [n|]; [|cbn [length]; lia].
  destruct (0 <? n); cbn [length]; lia.
Qed.

(** C66.  In every execution every peek finds less than the whole buffer, so counting it
    stays in the array; the i-th of the 20 lines of the report has the number of peeks
    that found at least i * 5 and less than (i + 1) * 5 percent of the buffer; the lines
    add up to the number of peeks that found anything. *)
Theorem C66_peeks : forall size ls r,
  1 <= size < 2 ^ 32 -> reached size ls r -> zlen ls < 2 ^ 64 ->
  Forall (fun n => 0 < n < size) (peek_sizes size ls (new_ring size)) /\
  exists dist, hist_run size ls (new_ring size) new_dist = Some (r, dist) /\
    length dist = 20%nat /\
    (forall i, 0 <= i < 20 ->
       nth (Z.to_nat i) dist 0 = number (percent size (5 * i) (5 * (i + 1))) (peek_sizes size ls (new_ring size))) /\
    total dist = zlen (peek_sizes size ls (new_ring size)).
Proof.
  intros size ls r HS HR HL.
  destruct (hist_run_bumps size ls (new_ring size) r new_dist HS) as (F & E); auto.
  - apply new_ring_inv. lia.
  - split; [cbn; lia|constructor].
  - split; [exact F|]. rewrite E. set (ps := peek_sizes size ls (new_ring size)) in *.
    pose proof (peek_sizes_length size ls (new_ring size)) as L. fold ps in L.
    destruct (bumps_spec 64 (map (fun n => 20 * n / size) ps) new_dist) as (d & A & B & C & D).
    + apply Forall_map. eapply Forall_impl; [|exact F]. cbn beta. intros n Hn. change (zlen new_dist) with 20. nia.
    + apply new_dist_ok. rewrite zlen_map. lia.
    + exists d. rewrite A. splits; auto.
      * intros i Hi. rewrite C. unfold new_dist. rewrite nth_repeat, number_map, Z2Nat.id by lia.
        apply number_ext. intros n Hn. rewrite Forall_forall in F. specialize (F _ Hn). cbn beta in F. unfold percent.
        destruct (i =? 20 * n / size) eqn:X; symmetry; [apply andb_true_iff; split; [apply Z.leb_le|apply Z.ltb_lt]; nia|].
        apply andb_false_iff. apply Z.eqb_neq in X.
        destruct (Z_lt_dec i (20 * n / size)); [right; apply Z.ltb_ge; nia|left; apply Z.leb_gt; nia].
      * rewrite D, zlen_map. reflexivity.
Qed.

(** ** The times a thread was blocked *)

(** The allocations that took the slow path, in cycles. *)
Fixpoint slow_of (h : list (option Z)) : list Z :=
  match h with
  | [] => []
  | Some x :: r => x :: slow_of r
  | None :: r => slow_of r
  end.

(** [x] cycles are at least [a] and less than [b] nanoseconds. *)
Definition lasts (cps : Q) (a b x : Z) : bool :=
  (Qle_bool (inject_Z a) (exact_ns x cps) && negb (Qle_bool (inject_Z b) (exact_ns x cps))).

(** The counters, after the allocations [h], are what the report says they are. *)
Definition counted (cps : Q) (h : list (option Z)) (s : pstats) : Prop :=
  ps_allocs s = zlen h /\ ps_times s = zlen (slow_of h) /\ length (ps_dist s) = 20%nat /\
  (forall i, 0 <= i < 20 -> nth (Z.to_nat i) (ps_dist s) 0 = number (lasts cps (10 * i) (10 * (i + 1))) (slow_of h)).

Definition C67_full : Prop := forall cps c10 h id,
  (0 < cps)%Q -> fromNanoseconds 10 cps = Some c10 -> Forall (fun x => 0 <= x) (slow_of h) -> zlen h < 2 ^ 32 ->
  (exact_ns (total (slow_of h)) cps <= inject_Z (2 ^ 63))%Q ->
  exists s t, allocs c10 h new_stats = Some s /\ counted cps h s /\ thread_report cps id s = Some t.

Lemma total_nonneg : forall l, Forall (fun x => 0 <= x) l -> 0 <= total l.
Proof. induction 1; unfold total in *; cbn [fold_right]; lia. Qed.

Lemma slow_length : forall h, zlen (slow_of h) <= zlen h.
Proof. unfold zlen. induction h as [|[x|] h IH]; cbn [slow_of length]; lia. Qed.

Lemma allocs_bumps : forall c10 h s, c10 <> 0 -> Forall (fun x => 0 <= x) (slow_of h) ->
  0 <= ps_cycles s -> 0 <= ps_times s -> 0 <= ps_allocs s ->
  ps_cycles s + total (slow_of h) < 2 ^ 64 -> ps_times s + zlen (slow_of h) < 2 ^ 32 -> ps_allocs s + zlen h < 2 ^ 64 ->
  allocs c10 h s =
  option_map (PStats (ps_cycles s + total (slow_of h)) (ps_times s + zlen (slow_of h)) (ps_allocs s + zlen h))
    (bumps 32 (map (fun x => Z.min (x / c10) 19) (slow_of h)) (ps_dist s)).
Proof.
  intros c10. induction h as [|[x|] h IH]; intros [cy ti al d] HC F P1 P2 P3 B1 B2 B3; cbn [ps_cycles ps_times ps_allocs ps_dist slow_of] in *.
  - cbn [allocs map bumps option_map total fold_right]. change (zlen (@nil Z)) with 0. change (zlen (@nil (option Z))) with 0.
    now rewrite !Z.add_0_r.
  - rewrite ?zlen_cons in *. assert (X := Forall_inv F). cbn beta in X. apply Forall_inv_tail in F.
    assert (T := total_nonneg _ F). pose proof (zlen_nonneg _ (slow_of h)). pose proof (zlen_nonneg _ h).
    assert (ET : total (x :: slow_of h) = x + total (slow_of h)) by reflexivity. rewrite ET in *.
    cbn [allocs alloc map bumps ps_cycles ps_times ps_allocs ps_dist]. destruct (c10 =? 0) eqn:Z0; [lia|].
    destruct (bump 32 (Z.min (x / c10) 19) d) as [d'|]; [|reflexivity].
    replace (to_u 64 (cy + x)) with (cy + x) by (unfold to_u; symmetry; apply Z.mod_small; lia).
    replace (to_u 32 (ti + 1)) with (ti + 1) by (unfold to_u; symmetry; apply Z.mod_small; lia).
    replace (to_u 64 (al + 1)) with (al + 1) by (unfold to_u; symmetry; apply Z.mod_small; lia).
    rewrite IH; cbn [ps_cycles ps_times ps_allocs ps_dist]; auto; try lia.
    rewrite ?zlen_cons, !Z.add_assoc. reflexivity.
  - rewrite ?zlen_cons in *. pose proof (zlen_nonneg _ (slow_of h)). pose proof (zlen_nonneg _ h).
    cbn [allocs alloc ps_cycles ps_times ps_allocs ps_dist].
    replace (to_u 64 (al + 1)) with (al + 1) by (unfold to_u; symmetry; apply Z.mod_small; lia).
    rewrite IH; cbn [ps_cycles ps_times ps_allocs ps_dist]; auto; try lia.
    rewrite ?zlen_cons, !Z.add_assoc. reflexivity.
Qed.

(** [x] is in the [i]-th of 20 intervals of [c10] cycles, the last one unbounded. *)
Definition slot (c10 i x : Z) : bool := (i * c10 <=? x) && ((i =? 19) || (x <? (i + 1) * c10)).

Lemma slot_spec : forall c10 i x, 0 < c10 -> 0 <= x -> 0 <= i < 20 -> (i =? Z.min (x / c10) 19) = slot c10 i x.
Proof.
  intros c10 i x HC HX HI. unfold slot.
  destruct (i =? Z.min (x / c10) 19) eqn:E; symmetry.
  - apply Z.eqb_eq in E. apply andb_true_iff. split; [apply Z.leb_le; nia|].
    apply orb_true_iff. rewrite Z.eqb_eq, Z.ltb_lt. destruct (Z.eq_dec i 19); [now left|right; nia].
  - apply Z.eqb_neq in E. apply andb_false_iff. rewrite orb_false_iff, Z.leb_gt, Z.eqb_neq, Z.ltb_ge.
    destruct (Z_lt_dec (x / c10) i); [left; nia|right; split; nia].
Qed.

(** C67, the part that holds: if 10 ns are at least one cycle, everything is counted:
    the i-th interval has the times of at least i and less than i + 1 times
    cyclesIn10Ns, the last interval also all longer times, whatever the report says it
    has.  If the thread ever took the slow path the report is made. *)
Theorem C67_partial : forall cps c10 h id,
  (0 < cps)%Q -> 0 < c10 -> Forall (fun x => 0 <= x) (slow_of h) -> zlen h < 2 ^ 32 -> total (slow_of h) < 2 ^ 64 ->
  (exact_ns (total (slow_of h)) cps <= inject_Z (2 ^ 63))%Q ->
  exists s, allocs c10 h new_stats = Some s /\
    ps_allocs s = zlen h /\ ps_times s = zlen (slow_of h) /\ ps_cycles s = total (slow_of h) /\ length (ps_dist s) = 20%nat /\
    (forall i, 0 <= i < 20 -> nth (Z.to_nat i) (ps_dist s) 0 = number (slot c10 i) (slow_of h)) /\
    total (ps_dist s) = ps_times s /\
    (slow_of h <> [] -> exists t, thread_report cps id s = Some t).
Proof.
  intros cps c10 h id HP HC F HL HT HN. pose proof (slow_length h) as SL.
  rewrite (allocs_bumps c10 h new_stats); cbn [new_stats ps_cycles ps_times ps_allocs ps_dist]; auto; try lia.
  destruct (bumps_spec 32 (map (fun x => Z.min (x / c10) 19) (slow_of h)) new_dist) as (d & A & B & C & D).
  - apply Forall_map. eapply Forall_impl; [|exact F]. cbn beta. intros x Hx. change (zlen new_dist) with 20. split; [|lia].
    apply Z.min_glb; [apply Z.div_pos; lia|lia].
  - apply new_dist_ok. rewrite zlen_map. lia.
  - rewrite A. cbn [option_map]. eexists. split; [reflexivity|]. cbn [ps_cycles ps_times ps_allocs ps_dist].
    splits; auto.
    + intros i Hi. rewrite C. unfold new_dist. rewrite nth_repeat, number_map, Z2Nat.id by lia.
      apply number_ext. intros x Hx. rewrite Forall_forall in F. apply slot_spec; auto.
    + rewrite D, zlen_map. reflexivity.
    + intros NE. unfold thread_report. cbn [ps_times ps_cycles].
      destruct (0 + zlen (slow_of h) =? 0) eqn:Z0.
      { destruct (slow_of h); [contradiction|]. rewrite zlen_cons in Z0. pose proof (zlen_nonneg _ l). lia. }
      destruct (ns_ok cps HP) as (CV & _).
      destruct (CV (total (slow_of h)) (total_nonneg _ F) HN) as (r & E & _). cbn beta in E.
      change (0 + total (slow_of h)) with (total (slow_of h)). rewrite E. eauto.
Qed.

(** If the clock's frequency is a multiple of 100 MHz the intervals but the last are
    those of the report. *)
Theorem C67_intervals : forall c10 i x, 0 < c10 -> 0 <= i < 19 ->
  slot c10 i x = lasts (inject_Z (100000000 * c10)) (10 * i) (10 * (i + 1)) x.
Proof.
  intros c10 i x HC HI. unfold slot, lasts.
  assert (K : forall a, Qle_bool (inject_Z (10 * a)) (exact_ns x (inject_Z (100000000 * c10))) = (a * c10 <=? x)).
  { intros a. destruct (a * c10 <=? x) eqn:E.
    - apply Z.leb_le in E. apply Qle_bool_iff. unfold exact_ns. apply Qle_shift_div_l.
      + change 0%Q with (inject_Z 0). rewrite <- Zlt_Qlt. lia.
      + change 1000000000%Q with (inject_Z 1000000000). rewrite <- !inject_Z_mult, <- Zle_Qle. nia.
    - apply Z.leb_gt in E. apply not_true_iff_false. rewrite Qle_bool_iff. intros C. unfold exact_ns in C.
      assert (P : (0 < inject_Z (100000000 * c10))%Q) by (change 0%Q with (inject_Z 0); rewrite <- Zlt_Qlt; lia).
      apply (Qmult_le_compat_r _ _ (inject_Z (100000000 * c10))) in C; [|now apply Qlt_le_weak].
      unfold Qdiv in C. rewrite <- Qmult_assoc, (Qmult_comm (/ _)), Qmult_inv_r, Qmult_1_r in C;
        [|intros Q0; rewrite Q0 in P; revert P; apply Qlt_irrefl].
      change 1000000000%Q with (inject_Z 1000000000) in C. rewrite <- !inject_Z_mult, <- Zle_Qle in C. nia. }
  rewrite !K. replace (i =? 19) with false by lia. cbn [orb]. f_equal.
  destruct (x <? (i + 1) * c10) eqn:E; symmetry; [apply negb_true_iff, Z.leb_gt|apply negb_false_iff, Z.leb_le]; lia.
Qed.

(** The average is not in the report: only its being defined matters. *)
Theorem C67_no_average : forall cps id cy cy' n n' ti al d,
  toNanoseconds cy cps = Some n -> toNanoseconds cy' cps = Some n' ->
  thread_report cps id (PStats cy ti al d) = thread_report cps id (PStats cy' ti al d).
Proof. intros cps id cy cy' n n' ti al d H H'. unfold thread_report. cbn [ps_times ps_cycles ps_allocs ps_dist]. now rewrite H, H'. Qed.

(** A thread that never took the slow path: the average is a division by zero. *)
Theorem C67_refuted : ~ C67_full.
Proof.
  intros F. destruct (F 3000000000%Q 30 [None; None] 1) as (s & t & A & _ & B).
  - reflexivity.
  - reflexivity.
  - constructor.
  - cbn. lia.
  - discriminate.
  - cbn in A. apply some_inj in A. subst s. discriminate.
Qed.

(** ** Examples *)

(** A buffer of 8 bytes: a peek that finds 7 bytes, 87%; then, after the producer
    wrapped around, one that finds 2 bytes, 25%. *)
Definition hist_labels : list label :=
  [LLog [1; 2; 3; 4; 5; 6; 7]] ++ repeat LProducer 9 ++ repeat LCommitP 8 ++
  [LPeek; LConsumer; LTake 7] ++ repeat LConsumer 8 ++ [LCommitC] ++
  [LLog [8; 9]] ++ repeat LProducer 7 ++ repeat LCommitP 5 ++
  [LPeek; LConsumer; LConsumer].

Example C66_instance :
  (exists r, reached 8 hist_labels r) /\
  peek_sizes 8 hist_labels (new_ring 8) = [7; 2] /\
  option_map snd (hist_run 8 hist_labels (new_ring 8) new_dist) =
    Some [0; 0; 0; 0; 0; 1; 0; 0; 0; 0; 0; 0; 0; 0; 0; 0; 0; 1; 0; 0].
Proof. vm_compute. splits; [eexists|..]; reflexivity. Qed.

(** At 3 GHz, blocked for 1, 9.67, 10, 333 and 0.33 ns: the report has three times
    below 10 ns, and one of 190 to 200 ns. *)
Definition stats67 : pstats := PStats 1063 5 7 [3; 1; 0; 0; 0; 0; 0; 0; 0; 0; 0; 0; 0; 0; 0; 0; 0; 0; 0; 1].

Example C67_instance :
  fromNanoseconds 10 3000000000 = Some 30 /\
  allocs 30 [Some 3; None; Some 29; Some 30; None; Some 1000; Some 1] new_stats = Some stats67 /\
  option_map (firstn 88) (thread_report 3000000000 2 stats67) =
    Some (chars "Thread 2:" ++ crlf ++ [9] ++ chars "Allocations   : 7" ++ crlf ++ [9] ++ chars "Times Blocked : 5" ++ crlf ++
          [9; 9] ++ chars "   0 -   10 ns: 3" ++ crlf ++ [9; 9] ++ chars "  10 -   20 ns").
Proof. splits; vm_compute; reflexivity. Qed.

(** At 2.44 GHz 24 cycles, 9.8 ns, are counted as 10 to 20 ns, and 1000 cycles, 409 ns, as
    190 to 200 ns. *)
Example C67_rounded :
  fromNanoseconds 10 2440000000 = Some 24 /\
  option_map ps_dist (allocs 24 [Some 24; Some 1000] new_stats) = Some [0; 1; 0; 0; 0; 0; 0; 0; 0; 0; 0; 0; 0; 0; 0; 0; 0; 0; 0; 1] /\
  lasts 2440000000 0 10 24 = true /\ lasts 2440000000 190 200 1000 = false.
Proof. splits; vm_compute; reflexivity. Qed.

(** Below 50 MHz cyclesIn10Ns is 0. *)
Example C67_slow_clock : fromNanoseconds 10 40000000 = Some 0 /\ allocs 0 [Some 5] new_stats = None.
Proof. splits; vm_compute; reflexivity. Qed.

Print Assumptions C66_peeks.
Print Assumptions C67_partial.
Print Assumptions C67_intervals.
Print Assumptions C67_no_average.
Print Assumptions C67_refuted.

(** ** The report *)

(** The numbers in a text, in order. *)
Fixpoint numbers (cur : option Z) (t : list Z) : list Z :=
  match t with
  | [] => match cur with Some n => [n] | None => [] end
  | c :: r =>
    if (48 <=? c) && (c <=? 57) then numbers (Some (10 * match cur with Some n => n | None => 0 end + (c - 48))) r
    else match cur with Some n => n :: numbers None r | None => numbers None r end
  end.

Fixpoint concat_map_from {A : Type} (f : Z -> A -> list Z) (i : Z) (l : list A) : list Z :=
  match l with [] => [] | x :: r => f i x ++ concat_map_from f (i + 1) r end.

Definition no_digit (c : Z) : bool := negb ((48 <=? c) && (c <=? 57)).

Lemma numbers_skip : forall w r, forallb no_digit w = true -> numbers None (w ++ r) = numbers None r.
Proof.
  induction w as [|c w IH]; intros r H; [reflexivity|]. cbn [forallb] in H. apply andb_true_iff in H. destruct H as [H1 H2].
  unfold no_digit in H1. apply negb_true_iff in H1. cbn [app numbers]. rewrite H1. now apply IH.
Qed.

Lemma numbers_run : forall ds n r, Forall is_digit ds -> numbers (Some n) (ds ++ r) = numbers (Some (fold_left (fun a c => 10 * a + (c - 48)) ds n)) r.
Proof.
  induction ds as [|c ds IH]; intros n r H; [reflexivity|]. inversion H as [|? ? A B]; subst. unfold is_digit in A.
  cbn [app numbers fold_left]. replace ((48 <=? c) && (c <=? 57)) with true by lia. now apply IH.
Qed.

Lemma numbers_digits : forall ds c r, Forall is_digit ds -> ds <> [] -> no_digit c = true ->
  numbers None (ds ++ c :: r) = dec_val ds :: numbers None (c :: r).
Proof.
  intros [|d ds] c r H N D; [congruence|]. inversion H as [|? ? A B]; subst. unfold is_digit in A.
  cbn [app numbers]. replace ((48 <=? d) && (d <=? 57)) with true by lia. rewrite numbers_run by exact B.
  unfold no_digit in D. apply negb_true_iff in D. cbn [numbers]. rewrite D. unfold dec_val. reflexivity.
Qed.

Lemma numbers_dec : forall n c r, 0 <= n -> no_digit c = true -> numbers None (dec_str n ++ c :: r) = n :: numbers None (c :: r).
Proof.
  intros n c r H D. destruct (dec_str_spec n H) as (N & F & V). rewrite numbers_digits by auto. now rewrite V.
Qed.

Lemma numbers_padded : forall w n c r, 0 <= n -> no_digit c = true -> numbers None (padded w n ++ c :: r) = n :: numbers None (c :: r).
Proof.
  intros w n c r H D. destruct (padded_spec w n H) as (F & V & N). rewrite numbers_digits by auto. now rewrite V.
Qed.

Lemma numbers_wide : forall w n c r, 0 <= n -> no_digit c = true -> numbers None (wide w n ++ c :: r) = n :: numbers None (c :: r).
Proof.
  intros w n c r H D. unfold wide. rewrite <- app_assoc, numbers_skip; [now apply numbers_dec|].
  apply forallb_forall. intros x Hx. apply repeat_spec in Hx. now subst x.
Qed.

Lemma numbers_dist : forall line f, (forall i x r, 0 <= i -> 0 <= x -> numbers None (line i x ++ r) = f i x ++ numbers None r) ->
  forall dist i r, 0 <= i -> Forall (fun x => 0 <= x) dist -> numbers None (dist_lines line i dist ++ r) = concat_map_from f i dist ++ numbers None r.
Proof.
  intros line f K. induction dist as [|x dist IH]; intros i r Hi H; [reflexivity|]. inversion H; subst.
  cbn [dist_lines concat_map_from]. rewrite <- !app_assoc, K by lia. f_equal. apply IH; auto. lia.
Qed.

Ltac lit := match goal with |- context [chars ?s] => let v := eval vm_compute in (chars s) in change (chars s) with v end.

Lemma peek_numbers : forall i x r, 0 <= i -> 0 <= x -> numbers None (peek_line i x ++ r) = [5 * i; 5 * (i + 1); x] ++ numbers None r.
Proof.
  intros i x r Hi Hx. unfold peek_line, crlf. repeat lit. rewrite <- !app_assoc. rewrite numbers_skip by reflexivity. cbn [app].
  rewrite numbers_padded by (reflexivity || lia). cbn [numbers Z.leb Z.compare Pos.compare Pos.compare_cont andb].
  rewrite numbers_padded by (reflexivity || lia). cbn [numbers Z.leb Z.compare Pos.compare Pos.compare_cont andb].
  rewrite numbers_dec by (reflexivity || lia). cbn [numbers Z.leb Z.compare Pos.compare Pos.compare_cont andb].
  replace (i * 100 / 20) with (5 * i) by lia. replace ((i + 1) * 100 / 20) with (5 * (i + 1)) by lia. reflexivity.
Qed.

Lemma block_numbers : forall i x r, 0 <= i -> 0 <= x -> numbers None (block_line i x ++ r) = [10 * i; 10 * (i + 1); x] ++ numbers None r.
Proof.
  intros i x r Hi Hx. unfold block_line, crlf. repeat lit. rewrite <- !app_assoc. rewrite numbers_skip by reflexivity. cbn [app].
  rewrite numbers_wide by (reflexivity || lia). cbn [numbers Z.leb Z.compare Pos.compare Pos.compare_cont andb].
  rewrite numbers_wide by (reflexivity || lia). cbn [numbers Z.leb Z.compare Pos.compare Pos.compare_cont andb].
  rewrite numbers_dec by (reflexivity || lia). cbn [numbers Z.leb Z.compare Pos.compare Pos.compare_cont andb].
  replace (i * 10) with (10 * i) by lia. replace ((i + 1) * 10) with (10 * (i + 1)) by lia. reflexivity.
Qed.

Definition sane (e : Z * pstats) : Prop :=
  0 <= fst e /\ 0 <= ps_allocs (snd e) /\ 0 <= ps_times (snd e) /\ Forall (fun x => 0 <= x) (ps_dist (snd e)).

(** The numbers of the report, in order: limits in percent and count for each size of peeks; for each
    thread its id, allocations, times blocked, and for each interval its limits in ns and its count. *)
Theorem C67_report : forall cps peeks ts text, Forall (fun x => 0 <= x) peeks -> Forall sane ts ->
  getHistograms cps peeks ts = Some text ->
  numbers None text =
    concat_map_from (fun i x => [5 * i; 5 * (i + 1); x]) 0 peeks ++
    concat (map (fun e => fst e :: ps_allocs (snd e) :: ps_times (snd e) ::
      concat_map_from (fun i x => [10 * i; 10 * (i + 1); x]) 0 (ps_dist (snd e))) ts).
Proof.
  intros cps peeks ts text HP HT H. unfold getHistograms in H. destruct (thread_reports cps ts) as [t|] eqn:E; [|discriminate H].
  cbn [option_map] in H. apply some_inj in H. subst text. rewrite numbers_skip by reflexivity. unfold crlf at 1. rewrite numbers_skip by reflexivity.
  rewrite (numbers_dist _ _ peek_numbers) by (auto; lia). f_equal. clear HP peeks. revert t E. induction HT as [|[id s] ts (H1 & H2 & H3 & H4) HT IH]; intros t E.
  - cbn in E. apply some_inj in E. now subst t.
  - cbn [thread_reports] in E. unfold thread_report in E. cbn [fst snd] in *. destruct (ps_times s =? 0); [discriminate E|].
    destruct (toNanoseconds (ps_cycles s) cps); [|discriminate E]. destruct (thread_reports cps ts) as [b|]; [|discriminate E].
    apply some_inj in E. subst t. cbn [map concat fst snd]. unfold crlf. repeat lit. rewrite <- !app_assoc. rewrite numbers_skip by reflexivity. cbn [app].
    rewrite numbers_dec by (reflexivity || lia). cbn [numbers Z.leb Z.compare Pos.compare Pos.compare_cont andb].
    rewrite numbers_dec by (reflexivity || lia). cbn [numbers Z.leb Z.compare Pos.compare Pos.compare_cont andb].
    rewrite numbers_dec by (reflexivity || lia). cbn [numbers Z.leb Z.compare Pos.compare Pos.compare_cont andb].
    do 3 f_equal. rewrite (numbers_dist _ _ block_numbers) by (auto; lia). f_equal. now apply IH.
Qed.
Print Assumptions C67_report.

Example C67_report_instance :
  option_map (numbers None) (getHistograms 3000000000 [4; 0; 2] [(2, PStats 60 3 7 [2; 1]); (5, PStats 30 1 1 [0; 1])]) =
  Some [0; 5; 4; 5; 10; 0; 10; 15; 2; 2; 7; 3; 0; 10; 2; 10; 20; 1; 5; 1; 1; 0; 10; 0; 10; 20; 1].
Proof. vm_compute. reflexivity. Qed.
