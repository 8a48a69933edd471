(** C43, C45: the statistics of LogDecompressor. *)
From Coq Require Import Sorted Permutation.
From Verif Require Import Base BaseProofs RingProofs Packer Chars Fmt Args Printf DecodeProofs LogMsg LogMsgProofs Prop_LogMsg Stats.

(** ** C43 *)

(** Specification.  The value of a message is its first argument, an int. *)
Definition value (m : emsg) : Z :=
  match em_args m with (bs, _) :: _ => to_s 32 (le_val bs) | [] => 0 end.
Definition sum (l : list Z) : Z := fold_right Z.add 0 l.
Definition selected (filterId : Z) (ms : list emsg) : list Z := map value (filter (fun m => em_id m =? filterId) ms).

Definition right_report (ms : list emsg) (vs : list Z) (r : report) : Prop :=
  rp_logs r = zlen ms /\ rp_count r = zlen vs /\
  In (rp_min r) vs /\ (forall v, In v vs -> rp_min r <= v) /\
  In (rp_max r) vs /\ (forall v, In v vs -> v <= rp_max r) /\
  rp_total r = sum vs /\ rp_mean r = Z.quot (sum vs) (zlen vs).

(** Messages the decoder can hand over: arguments of at most eight bytes; those
    selected start with an int. *)
Definition decoded (filterId : Z) (m : emsg) : Prop :=
  0 <= em_id m < 2 ^ 32 /\ Forall (fun '(bs, _) => fits8 bs) (em_args m) /\ zlen (em_args m) <= most_args /\
  (em_id m = filterId -> exists bs j r, em_args m = (bs, j) :: r /\ length bs = 4%nat).

(** Full statement: a right report, and some report when nothing matches. *)
Definition C43_full : Prop := forall filterId ms,
  0 <= filterId < 2 ^ 31 -> zlen ms <= 2 ^ 32 -> Forall (decoded filterId) ms ->
  exists r, minMaxMean filterId ms = Some r /\ (selected filterId ms <> [] -> right_report ms (selected filterId ms) r).

Theorem C43_refuted : ~ C43_full.
Proof.
  intro H. destruct (H 3 [] ltac:(lia) ltac:(cbn; lia) ltac:(constructor)) as (r & E & _). discriminate E.
Qed.

Lemma msg_run : forall m s l, lm_ok s l -> Forall (fun '(bs, _) => fits8 bs) (em_args m) -> zlen (em_args m) <= most_args ->
  exists s', lm_run s (em_ops m) = Some s' /\ lm_ok s' (map fst (em_args m)) /\ lm_id s' = em_id m.
Proof.
  intros m s l O F L. unfold em_ops. cbn [lm_run lm_step].
  pose proof (reset_ok s l (Some 0) (em_id m) (em_ts m) O) as O1.
  assert (I1 : lm_id (lm_reset s (Some 0) (em_id m) (em_ts m)) = em_id m) by reflexivity.
  set (s1 := lm_reset s (Some 0) (em_id m) (em_ts m)) in *. clearbody s1.
  assert (G : forall args done s1, lm_ok s1 (map fst done) -> lm_id s1 = em_id m ->
     Forall (fun '(bs, _) => fits8 bs) (done ++ args) -> zlen (done ++ args) <= most_args ->
     exists s', lm_run s1 (map (fun '(bs, j) => LPush bs j) args) = Some s' /\ lm_ok s' (map fst (done ++ args)) /\ lm_id s' = em_id m).
  { clear. induction args as [|[bs j] args IH]; intros done s1 O I F L.
    - exists s1. rewrite app_nil_r. auto.
    - cbn [map lm_run lm_step].
      assert (F1 : Forall fits8 (map fst done)).
      { apply Forall_forall. intros x Hx. apply in_map_iff in Hx. destruct Hx as ([b k] & <- & Hin).
        rewrite Forall_forall in F. apply (F (b, k)). apply in_app_iff. auto. }
      assert (F2 : fits8 bs).
      { rewrite Forall_forall in F. apply (F (bs, j)). apply in_app_iff. right. now left. }
      destruct (push_ok s1 (map fst done) bs j O F1 F2) as (s2 & P & O2 & _).
      { rewrite (ok_num _ _ O). unfold zlen in *. rewrite map_length. rewrite app_length in L. cbn [length] in L. lia. }
      rewrite P. destruct (push_fields _ _ _ _ P) as (_ & P2 & _).
      destruct (IH (done ++ [(bs, j)]) s2) as (s' & R & O' & I').
      + rewrite map_app. exact O2.
      + congruence.
      + now rewrite <- app_assoc.
      + now rewrite <- app_assoc.
      + exists s'. rewrite <- app_assoc in O'. auto. }
  destruct (G (em_args m) [] s1 O1 I1 F L) as (s' & R & O' & I'). exists s'. auto.
Qed.

Definition agg_ok (a : agg) (n : Z) (vs : list Z) : Prop :=
  ag_total a = sum vs /\ ag_count a = zlen vs /\ ag_logs a = n /\
  (vs <> [] -> In (ag_max a) vs /\ (forall v, In v vs -> v <= ag_max a) /\ In (ag_min a) vs /\ (forall v, In v vs -> ag_min a <= v)).

Lemma sum_app : forall a b, sum (a ++ b) = sum a + sum b.
Proof.
  induction a as [|x a IH]; intro b; [reflexivity|]. change (sum ((x :: a) ++ b)) with (x + sum (a ++ b)).
  change (sum (x :: a)) with (x + sum a). rewrite IH. lia.
Qed.

Lemma sum_bound : forall l, Forall (fun v => - 2 ^ 31 <= v < 2 ^ 31) l -> - 2 ^ 31 * zlen l <= sum l <= (2 ^ 31 - 1) * zlen l.
Proof.
  induction 1 as [|v l H _ IH]; [cbn; lia|]. change (sum (v :: l)) with (v + sum l). unfold zlen in *. cbn [length].
  rewrite Nat2Z.inj_succ. change (2 ^ 31) with 2147483648 in *. lia.
Qed.

Lemma loop_ok : forall filterId ms s l a n vs, 0 <= filterId < 2 ^ 31 -> lm_ok s l -> agg_ok a n vs ->
  Forall (fun v => - 2 ^ 31 <= v < 2 ^ 31) vs -> 0 <= n -> zlen vs <= n -> n + zlen ms <= 2 ^ 32 -> Forall (decoded filterId) ms ->
  exists a', agg_loop filterId ms s a = Some a' /\ agg_ok a' (n + zlen ms) (vs ++ selected filterId ms).
Proof.
  induction ms as [|m ms IH]; intros s l a n vs HF O A V N0 NV N D.
  - exists a. unfold zlen. cbn [agg_loop selected filter map length]. rewrite app_nil_r, Z.add_0_r. auto.
  - inversion D as [|x y (D1 & D2 & D3 & D4) D']; subst x y.
    destruct (msg_run m s l O D2 D3) as (s' & R & O' & I').
    cbn [agg_loop]. rewrite R. unfold agg_step. rewrite I'.
    destruct A as (A1 & A2 & A3 & A4). rewrite A3.
    assert (ZL : zlen (m :: ms) = zlen ms + 1) by (unfold zlen; cbn [length]; lia).
    assert (ZN : 0 <= zlen ms) by (unfold zlen; lia).
    assert (LG : to_u 64 (n + 1) = n + 1) by (unfold to_u; lia). rewrite LG.
    unfold selected. cbn [filter]. destruct (Z.eqb_spec (em_id m) filterId) as [E|E].
    + replace (to_s 32 (em_id m) =? filterId) with true.
      2: { rewrite E. symmetry. apply Z.eqb_eq. apply to_s_id; [lia|]. change (2 ^ (32 - 1)) with (2 ^ 31). lia. }
      cbn [negb]. destruct (D4 E) as (bs & j & r & Ea & Hb).
      assert (G : lm_get s' 0 4 = Some bs).
      { change 0 with (Z.of_nat 0). rewrite <- Hb. apply (get_ok s' (map fst (em_args m))); auto.
        - apply Forall_forall. intros x Hx. apply in_map_iff in Hx. destruct Hx as ([b k] & <- & Hin).
          rewrite Forall_forall in D2. apply (D2 (b, k)). exact Hin.
        - rewrite Ea. reflexivity. }
      rewrite G. cbv zeta. assert (Ev : value m = to_s 32 (le_val bs)) by (unfold value; now rewrite Ea).
      rewrite <- Ev. set (v := value m) in *.
      assert (VR : - 2 ^ 31 <= v < 2 ^ 31).
      { rewrite Ev. pose proof (to_s_range 32 (le_val bs) ltac:(lia)) as X. change (2 ^ (32 - 1)) with (2 ^ 31) in X. exact X. }
      assert (V' : Forall (fun v => - 2 ^ 31 <= v < 2 ^ 31) (vs ++ [v])) by (apply Forall_app; auto).
      pose proof (sum_bound _ V') as SB.
      assert (ZV : zlen (vs ++ [v]) = zlen vs + 1) by (unfold zlen; rewrite app_length; cbn [length]; lia).
      rewrite ZV in SB. rewrite sum_app in SB. change (sum [v]) with (v + 0) in SB. rewrite A1, A2.
      assert (0 <= zlen vs) by (unfold zlen; lia).
      replace ((- 2 ^ 63 <=? sum vs + v) && (sum vs + v <? 2 ^ 63) && (zlen vs + 1 <? 2 ^ 63)) with true.
      2: { symmetry. rewrite !andb_true_iff. change (2 ^ 63) with 9223372036854775808 in *. change (2 ^ 31) with 2147483648 in *.
           change (2 ^ 32) with 4294967296 in *. lia. }
      cbn [map]. fold (selected filterId ms). change (value m) with v.
      replace (vs ++ v :: selected filterId ms) with ((vs ++ [v]) ++ selected filterId ms) by (rewrite <- app_assoc; reflexivity).
      rewrite ZL. replace (n + (zlen ms + 1)) with (n + 1 + zlen ms) by lia.
      apply (IH s' (map fst (em_args m))); auto; try lia.
      unfold agg_ok. cbn [ag_total ag_count ag_logs ag_max ag_min].
      split; [rewrite sum_app; change (sum [v]) with (v + 0); lia|]. split; [lia|]. split; [reflexivity|].
      intros _. destruct vs as [|v0 vs].
      * change (zlen (@nil Z) =? 0) with true. cbv iota. cbn [app]. rewrite Z.ltb_irrefl.
        splits; try (now left); intros x [<-|[]]; lia.
      * change (zlen (v0 :: vs) =? 0) with false; cbv iota.
        destruct (A4 ltac:(discriminate)) as (M1 & M2 & M3 & M4).
        set (w := v0 :: vs) in *. clearbody w.
        destruct (Z.ltb_spec (ag_max a) v); destruct (Z.ltb_spec v (ag_min a)); splits;
          try (apply in_app_iff; (left; assumption) || (right; left; reflexivity));
          intros x Hx; apply in_app_iff in Hx; destruct Hx as [Hx|[<-|[]]]; try (specialize (M2 x Hx); specialize (M4 x Hx)); lia.
    + replace (to_s 32 (em_id m) =? filterId) with false.
      2: { symmetry. apply Z.eqb_neq. intro X. apply E. unfold to_s in X. rewrite Z.mod_small in X by lia.
           destruct (em_id m <? 2 ^ (32 - 1)) eqn:Y; [exact X|]. lia. }
      cbn [negb]. fold (selected filterId ms). rewrite ZL. replace (n + (zlen ms + 1)) with (n + 1 + zlen ms) by lia.
      apply (IH s' (map fst (em_args m))); auto; try lia. unfold agg_ok. cbn [ag_total ag_count ag_logs ag_max ag_min]. auto.
Qed.

(** The full statement when something matches (otherwise the program divides by
    zero). *)
Theorem C43_partial : forall filterId ms,
  0 <= filterId < 2 ^ 31 -> zlen ms <= 2 ^ 32 -> Forall (decoded filterId) ms -> selected filterId ms <> [] ->
  exists r, minMaxMean filterId ms = Some r /\ right_report ms (selected filterId ms) r.
Proof.
  intros filterId ms HF HL HD HS.
  destruct (loop_ok filterId ms lm_init [] agg_init 0 [] HF init_ok) as (a & R & A1 & A2 & A3 & A4); auto; try (cbn; lia).
  { unfold agg_ok. splits; try reflexivity. congruence. }
  cbn [app] in *. rewrite Z.add_0_l in A3. unfold minMaxMean. rewrite R.
  replace (ag_count a =? 0) with false.
  2: { symmetry. apply Z.eqb_neq. rewrite A2. unfold zlen. destruct (selected filterId ms); [congruence|cbn [length]; lia]. }
  eexists. split; [reflexivity|]. destruct (A4 HS) as (M1 & M2 & M3 & M4).
  unfold right_report. cbn [rp_logs rp_count rp_min rp_max rp_mean rp_total].
  splits; auto; congruence.
Qed.

(** When nothing matches, the division by zero is reached. *)
Theorem C43_nothing : forall filterId ms,
  0 <= filterId < 2 ^ 31 -> zlen ms <= 2 ^ 32 -> Forall (decoded filterId) ms -> selected filterId ms = [] ->
  (exists a, agg_loop filterId ms lm_init agg_init = Some a /\ ag_count a = 0) /\ minMaxMean filterId ms = None.
Proof.
  intros filterId ms HF HL HD HS.
  destruct (loop_ok filterId ms lm_init [] agg_init 0 [] HF init_ok) as (a & R & A1 & A2 & A3 & A4); auto; try (cbn; lia).
  { unfold agg_ok. splits; try reflexivity. congruence. }
  cbn [app] in *. rewrite HS in A2. split; [exists a; auto|]. unfold minMaxMean. rewrite R, A2. reflexivity.
Qed.
Print Assumptions C43_refuted.
Print Assumptions C43_partial.
Print Assumptions C43_nothing.

Definition no_mem : mem := fun _ => 0.
Definition int_msg (id v : Z) : emsg := EMsg id 5 [(le_bytes 4 v, no_mem); (le_bytes 8 77, no_mem)].
Example C43_instance : minMaxMean 2 [int_msg 1 100; int_msg 2 (-7); EMsg 9 6 []; int_msg 2 12; int_msg 2 3]
  = Some (Report 5 3 (-7) 12 2 8).
Proof. vm_compute. reflexivity. Qed.

(** Without the demand for an int: a short is pushed in two bytes, and the other
    two are those of the message before. *)
Example C43_short : minMaxMean 2 [int_msg 1 (-1); EMsg 2 6 [(le_bytes 2 5, no_mem)]] = Some (Report 2 1 (-65531) (-65531) (-65531) (-65531)).
Proof. vm_compute. reflexivity. Qed.

(** ** C45 *)

(** Full statement: the mean of the time differences (to whole cycles). *)
Definition C45_mean_full : Prop := forall bound l, l <> [] -> Sorted Z.le l -> Forall (fun d => 0 <= d) l -> sum l < 2 ^ 64 ->
  exists lines, runRCDF bound l = Some (lines, sum l / zlen l).

Theorem C45_mean_refuted : ~ C45_mean_full.
Proof.
  intro H. destruct (H 0 [4; 4] ltac:(discriminate) ltac:(repeat constructor; lia) ltac:(repeat constructor; lia) ltac:(cbn; lia))
    as (lines & E). vm_compute in E. discriminate E.
Qed.

Lemma fold_sum : forall r s, 0 <= s -> Forall (fun d => 0 <= d) r -> s + sum r < 2 ^ 64 ->
  fold_left (fun s d => to_u 64 (s + d)) r s = s + sum r.
Proof.
  induction r as [|d r IH]; intros s Hs F B; cbn [fold_left sum fold_right] in *; [lia|]. fold (sum r) in *.
  inversion F as [|x y F1 F2]; subst x y.
  assert (0 <= sum r) by (clear - F2; induction F2; cbn; [lia|fold (sum l); lia]).
  replace (to_u 64 (s + d)) with (s + d) by (unfold to_u; lia). rewrite IH; auto; lia.
Qed.

(** What is printed instead: the sum without the smallest difference, over the
    number of all. *)
Theorem C45_mean_partial : forall bound d0 r, Forall (fun d => 0 <= d) r -> sum r < 2 ^ 64 ->
  exists lines, runRCDF bound (d0 :: r) = Some (lines, sum r / zlen (d0 :: r)).
Proof.
  intros bound d0 r F B. unfold runRCDF. rewrite fold_sum by (auto; lia). rewrite Z.add_0_l. eexists. reflexivity.
Qed.

(** Each line but the first and the last: [k] differences are larger than the
    latency by more than [bound], and no other difference is. *)
Definition above (x : Z) (l : list Z) : Z := zlen (filter (fun d => x <? d) l).

Lemma above_all : forall x l, Forall (fun d => x < d) l -> above x l = zlen l.
Proof.
  intros x l. unfold above, zlen. induction 1 as [|d l H _ IH]; cbn [filter]; [reflexivity|].
  replace (x <? d) with true by lia. cbn [length]. lia.
Qed.
Lemma above_none : forall x l, Forall (fun d => d <= x) l -> above x l = 0.
Proof.
  intros x l. unfold above, zlen. induction 1 as [|d l H _ IH]; cbn [filter]; [reflexivity|].
  replace (x <? d) with false by lia. exact IH.
Qed.
Lemma above_app : forall x a b, above x (a ++ b) = above x a + above x b.
Proof. intros. unfold above, zlen. rewrite filter_app, app_length. lia. Qed.

Lemma rcdf_lines : forall bound l done last, 0 <= bound -> StronglySorted Z.le (last :: l) -> 0 <= last ->
  Forall (fun d => 0 <= d < 2 ^ 64) (last :: l) -> Forall (fun d => d <= last + bound) done ->
  Forall (fun '(x, k) => k = above (x + bound) (done ++ l)) (rcdf_loop bound (zlen (done ++ l)) (zlen done) last l).
Proof.
  induction l as [|d l IH]; intros done last HB S L0 R D; cbn [rcdf_loop]; [constructor|].
  inversion S as [|x y S1 S2]; subst x y. inversion S1 as [|x y S3 S4]; subst x y.
  inversion S2 as [|x y S5 S6]; subst x y. inversion R as [|x y R1 R2]; subst x y. inversion R2 as [|x y R3 R4]; subst x y.
  assert (E : to_u 64 (d - last) = d - last) by (unfold to_u; lia). rewrite E.
  replace (zlen done + 1) with (zlen (done ++ [d])) by (unfold zlen; rewrite app_length; cbn [length]; lia).
  replace (done ++ d :: l) with ((done ++ [d]) ++ l) by (rewrite <- app_assoc; reflexivity).
  destruct (Z.ltb_spec bound (d - last)) as [B|B].
  - constructor.
    + rewrite <- app_assoc. cbn [app]. rewrite above_app, above_none by auto.
      rewrite above_all.
      * unfold zlen. rewrite app_length. lia.
      * constructor; [lia|]. rewrite Forall_forall in S4 |- *. intros z Hz. specialize (S4 z Hz). lia.
    + apply IH; auto; try lia. apply Forall_app. split; [|constructor; [lia|constructor]].
      rewrite Forall_forall in D |- *. intros z Hz. specialize (D z Hz). lia.
  - apply IH; auto.
    + constructor; [inversion S1; auto|]. rewrite Forall_forall in S6 |- *. exact S6.
    + apply Forall_app. split; [exact D|]. constructor; [lia|constructor].
Qed.

Theorem C45_lines : forall bound d0 r lines mean, 0 <= bound -> Sorted Z.le (d0 :: r) ->
  Forall (fun d => 0 <= d < 2 ^ 64) (d0 :: r) -> runRCDF bound (d0 :: r) = Some (lines, mean) ->
  exists mid, lines = (d0, zlen (d0 :: r)) :: mid ++ [(last (d0 :: r) 0, 1)] /\
    Forall (fun '(x, k) => k = above (x + bound) (d0 :: r)) mid.
Proof.
  intros bound d0 r lines mean HB S F H. unfold runRCDF in H.
  apply Sorted_StronglySorted in S; [|exact Z.le_trans].
  apply some_inj in H. apply (f_equal fst) in H. cbn [fst] in H. subst lines.
  eexists. split; [reflexivity|].
  inversion F; subst.
  apply (rcdf_lines bound r [d0] d0 HB S); auto; try lia. constructor; [lia|constructor].
Qed.

(** From the time stamps: the differences of each two in succession, as uint64_t. *)
Definition differences (ts : list Z) : list Z :=
  map (fun i => (nth (S i) ts 0 - nth i ts 0) mod 2 ^ 64) (seq 0 (length ts - 1)).

Lemma deltas_spec : forall ts t, deltas t ts = differences (t :: ts).
Proof.
  unfold differences. induction ts as [|u ts IH]; intro t; cbn [deltas]; [reflexivity|].
  rewrite IH. cbn [length]. cbn [Nat.sub]. rewrite Nat.sub_0_r. cbn [seq map]. f_equal.
  rewrite <- seq_shift, map_map. reflexivity.
Qed.

Lemma above_perm : forall x l l', Permutation l l' -> above x l = above x l'.
Proof.
  unfold above, zlen. intros x l l' H. f_equal. induction H as [|d l l' H IH|d e l|l l' l'' _ IH1 _ IH2]; cbn [filter]; try congruence.
  - destruct (x <? d); cbn [length]; congruence.
  - destruct (x <? d), (x <? e); reflexivity.
Qed.

Lemma interLog_spec : forall ts, interLogTimes ts = differences ts.
Proof. intros [|t ts]; [reflexivity|apply deltas_spec]. Qed.

Lemma deltas_range : forall ts t, Forall (fun d => 0 <= d < 2 ^ 64) (deltas t ts).
Proof. induction ts as [|u ts IH]; intro t; cbn [deltas]; constructor; auto. unfold to_u. lia. Qed.

Lemma rcdf_in : forall bound l n i last, Forall (fun '(x, k) => In x (last :: l)) (rcdf_loop bound n i last l).
Proof.
  induction l as [|d l IH]; intros n i last; cbn [rcdf_loop]; [constructor|].
  destruct (bound <? _).
  - constructor; [now left|]. eapply Forall_impl; [|apply IH]. intros (x & k) H. now right.
  - eapply Forall_impl; [|apply IH]. intros (x & k) [H | H]; [now left|right; now right].
Qed.

Lemma last_in : forall (l : list Z) a, In (last (a :: l) 0) (a :: l).
Proof. induction l as [|b l IH]; intro a; [now left|]. right. apply (IH b). Qed.

Lemma last_ge : forall (l : list Z) a, StronglySorted Z.le (a :: l) -> Forall (fun d => d <= last (a :: l) 0) (a :: l).
Proof.
  induction l as [|b l IH]; intros a S; [constructor; [cbn; lia|constructor]|].
  inversion S as [|? ? S1 S2]; subst. constructor.
  - pose proof (last_in l b) as H. rewrite Forall_forall in S2. specialize (S2 _ H). exact S2.
  - exact (IH b S1).
Qed.

Lemma rcdf_covers : forall bound l n i last0, 0 <= bound -> StronglySorted Z.le (last0 :: l) -> Forall (fun d => 0 <= d < 2 ^ 64) (last0 :: l) ->
  forall e, e <= last (last0 :: l) 0 -> last0 <= e <= last0 + bound \/ In e l ->
  (exists x k, In (x, k) (rcdf_loop bound n i last0 l) /\ x <= e <= x + bound) \/ last (last0 :: l) 0 - bound <= e.
Proof.
  induction l as [|d l IH]; intros n i last0 HB S R e Le He; cbn [rcdf_loop].
  - cbn [last] in *. right. destruct He as [He | []]. lia.
  - inversion S as [|? ? S1 S2]; subst. inversion S2 as [|? ? S3 S4]; subst. inversion R as [|? ? R1 R2]; subst. inversion R2 as [|? ? R3 R4]; subst. inversion S1 as [|? ? S5 S6]; subst.
    change (last (last0 :: d :: l) 0) with (last (d :: l) 0) in *.
    replace (to_u 64 (d - last0)) with (d - last0) by (unfold to_u; lia).
    destruct (Z.ltb_spec bound (d - last0)) as [B|B].
    + destruct He as [He | He].
      { left. exists last0, (n - i). split; [now left|exact He]. }
      destruct (IH n (i + 1) d HB S1 R2 e Le) as [(x & k & H1 & H2) | H].
      * destruct He as [<- | He]; [left; lia|now right].
      * left. exists x, k. split; [now right|exact H2].
      * now right.
    + destruct l as [|f l].
      * cbn [last] in *. right. destruct He as [He | [<- | []]]; lia.
      * change (last (d :: f :: l) 0) with (last (last0 :: f :: l) 0) in *. apply IH; auto.
        -- constructor; auto.
        -- destruct He as [He | [<- | He]]; [now left|left; lia|now right].
Qed.

(** The whole command; std::sort gives a sorted permutation.  The lines are right, and no
    difference is further than the resolution from a line. *)
Theorem C45_command : forall bound ts l lines mean, 0 <= bound -> Permutation l (interLogTimes ts) -> Sorted Z.le l ->
  runRCDF bound l = Some (lines, mean) ->
  exists lo hi mid, lines = (lo, zlen ts - 1) :: mid ++ [(hi, 1)] /\
    In lo (differences ts) /\ In hi (differences ts) /\ Forall (fun d => lo <= d <= hi) (differences ts) /\
    Forall (fun '(x, k) => In x (differences ts) /\ k = above (x + bound) (differences ts)) mid /\
    Forall (fun d => exists x k, In (x, k) lines /\ Z.abs (d - x) <= bound) (differences ts).
Proof.
  intros bound ts l lines mean HB P S E. pose proof (interLog_spec ts) as IS. rewrite IS in P.
  assert (FR : Forall (fun d => 0 <= d < 2 ^ 64) l).
  { apply Forall_forall. intros d Hd. apply (Permutation_in _ P) in Hd. rewrite <- IS in Hd. destruct ts as [|t ts]; [destruct Hd|].
    pose proof (deltas_range ts t) as D. rewrite Forall_forall in D. auto. }
  destruct l as [|d0 r]; [discriminate E|]. pose proof (Sorted_StronglySorted Z.le_trans S) as SS.
  destruct (C45_lines bound d0 r lines mean HB S FR E) as (mid & E1 & E2).
  unfold runRCDF in E. apply some_inj in E. apply (f_equal fst) in E. cbn [fst] in E. rewrite E1 in E. injection E as E. apply app_inj_tail in E. destruct E as [E _].
  assert (LN : zlen (d0 :: r) = zlen ts - 1).
  { unfold zlen. rewrite (Permutation_length P). unfold differences. rewrite map_length, seq_length. destruct ts; [|cbn [length]; lia].
    apply Permutation_length in P. discriminate P. }
  assert (PI : forall d, In d (differences ts) -> In d (d0 :: r)) by (intros d; apply (Permutation_in _ (Permutation_sym P))).
  exists d0, (last (d0 :: r) 0), mid. rewrite LN in E1. splits.
  - exact E1.
  - apply (Permutation_in _ P). now left.
  - apply (Permutation_in _ P). apply last_in.
  - pose proof (last_ge r d0 SS) as G. apply Forall_forall. intros d Hd. apply PI in Hd. rewrite Forall_forall in G. split; [|auto].
    inversion SS as [|? ? S1 S2]; subst. destruct Hd as [<- | Hd]; [lia|]. rewrite Forall_forall in S2. auto.
  - rewrite Forall_forall in E2 |- *. intros (x & k) Hx. split.
    + apply (Permutation_in _ P). pose proof (rcdf_in bound r (zlen (d0 :: r)) 1 d0) as G. rewrite <- E in Hx. rewrite Forall_forall in G. exact (G _ Hx).
    + rewrite (E2 _ Hx). now apply above_perm.
  - apply Forall_forall. intros d Hd. apply PI in Hd. pose proof (last_ge r d0 SS) as G. rewrite Forall_forall in G. specialize (G d Hd).
    destruct (rcdf_covers bound r (zlen (d0 :: r)) 1 d0 HB SS FR d G) as [(x & k & X1 & X2) | X].
    + destruct Hd as [<- | Hd]; [left; lia|now right].
    + exists x, k. rewrite E1. split; [|lia]. right. apply in_app_iff. left. now rewrite <- E.
    + exists (last (d0 :: r) 0), 1. rewrite E1. split; [|lia]. right. apply in_app_iff. right. now left.
Qed.

Print Assumptions C45_mean_refuted.
Print Assumptions C45_mean_partial.
Print Assumptions C45_lines.
Print Assumptions C45_command.

Example C45_instance : runRCDF 1 (interLogTimes [10; 13; 17; 27; 57]) = runRCDF 1 [3; 4; 10; 30] /\
  runRCDF 1 [3; 4; 10; 30] = Some ([(3, 4); (3, 2); (10, 1); (30, 1)], 11).
Proof. split; vm_compute; reflexivity. Qed.
(** No differences at all: the first element of an empty vector is read. *)
Example C45_empty : forall bound t, runRCDF bound (interLogTimes [t]) = None.
Proof. reflexivity. Qed.
