(** What the abstract run of ordered decompression (OrderedProofs.v) prints. *)
From Verif Require Import Base BaseProofs Printf Encoder Wire Decode DecodeProofs Decoder FileSpec DecoderProofs OrderSpec Ordered OrderedProofs.
From Coq Require Import Permutation Sorted.

Definition msgs_of (s : list afrag) : list fmsg := flat_map a_ms s.
Definition item_msgs (it : item) : list fmsg := match it with IExtent _ _ ms => ms | _ => [] end.
Definition content (cp : checkpoint) (fs : list afrag) : list oline := flat_map (fun f => map (show cp (a_tid f)) (a_ms f)) fs.
Definition pool (st : list (list afrag)) (items : list item) : list fmsg := msgs_of (concat st) ++ flat_map item_msgs items.
Definition nonpads (items : list item) : nat := length (filter (fun it => negb (is_pad it)) items).

(** ** Passes *)
Definition total (st : list (list afrag)) (n : nat) (items : list item) : list (list fmsg) :=
  map msgs_of (firstn n st) ++ match passes items with p :: ps => (msgs_of (nth n st []) ++ p) :: ps | [] => [] end.

Lemma passes_cons : forall items, exists p ps, passes items = p :: ps.
Proof.
  induction items as [|[?|? ?|tid np ms|? ?] items (p & ps & IH)]; cbn [passes]; eauto.
  rewrite IH. destruct np; eauto.
Qed.

Lemma passes_in : forall items m, In m (flat_map item_msgs items) -> exists j, In m (nth j (passes items) []).
Proof.
  induction items as [|it items IH]; intros m H; [contradiction|]. cbn [flat_map] in H. apply in_app_or in H.
  destruct it as [?|? ?|tid np ms|? ?]; cbn [item_msgs passes] in *; try (destruct H as [[]|H]; now apply IH).
  destruct (passes_cons items) as (p & ps & E). rewrite E in *. destruct H as [H|H].
  - exists 0%nat. destruct np; cbn [nth]; [exact H|]. apply in_or_app. now left.
  - destruct (IH _ H) as (j & Hj). destruct np.
    + exists (S j). exact Hj.
    + exists j. destruct j; cbn [nth] in *; [apply in_or_app; now right|exact Hj].
Qed.

Lemma displaced_sub : forall k d ps qs, (forall i, incl (nth i qs []) (nth (i + d) ps [])) -> displaced k ps -> displaced k qs.
Proof. intros k d ps qs HI HD i j x y Hij Hx Hy. apply (HD (i + d)%nat (j + d)%nat); [lia| |]; now apply HI. Qed.

Lemma displaced_weak : forall k k' ps, (k <= k')%nat -> displaced k ps -> displaced k' ps.
Proof. intros k k' ps Hk HD i j x y Hij. apply HD. lia. Qed.

(** ** Loading the rest of an execution *)
Definition behind {A} (st : list (list A)) (n : nat) : Prop := three st /\ (n < 3)%nat /\ forall i, (n < i)%nat -> nth i st [] = [].

(** Nothing is buffered, or something is in the first stage. *)
Definition lead {A} (st : list (list A)) (n : nat) : Prop := (n = 0%nat /\ forall i, nth i st [] = []) \/ nth 0 st [] <> [].

Definition loads (free : list Z) (st : list (list afrag)) (n : nat) (seg : list item) (cp : checkpoint)
    (free' : list Z) (st' : list (list afrag)) (n' : nat) (seg' : list item) : Prop :=
  three st' /\ total st' n' seg' = total st n seg /\ content cp (concat st') ++ file_lines cp seg' = content cp (concat st) ++ file_lines cp seg /\
  pool st' seg' = pool st seg /\
  (forall f, In f (concat st') -> In f (concat st) \/ exists tid np ms s, In (IExtent tid np ms) seg /\ f = AFrag tid ms s /\ In s (0 :: free)) /\
  incl free' free /\ incl seg' seg /\ (lead st n -> lead st' n').

Lemma push_concat : forall (st : list (list afrag)) n f, behind st n -> concat (push_stage n f st) = concat st ++ [f].
Proof.
  intros st n f (H3 & Hn & Hb). destruct (three_inv _ _ H3) as (a & b & c & ->). unfold push_stage.
  destruct n as [|[|[|]]]; try lia; cbn [nth set_nth concat].
  - pose proof (Hb 1%nat ltac:(lia)) as F1. pose proof (Hb 2%nat ltac:(lia)) as F2. cbn [nth] in *. subst b c. now rewrite !app_nil_r.
  - pose proof (Hb 2%nat ltac:(lia)) as F2. cbn [nth] in *. subst c. rewrite !app_nil_r. now rewrite app_assoc.
  - rewrite !app_nil_r. now rewrite !app_assoc.
Qed.

Lemma msgs_of_app : forall a b : list afrag, msgs_of (a ++ b) = msgs_of a ++ msgs_of b.
Proof. intros. unfold msgs_of. apply flat_map_app. Qed.

Lemma push_total : forall st n tid (np : bool) ms s r, behind st n ->
  total (push_stage n (AFrag tid ms s) st) (if np then S n else n) r = total st n (IExtent tid np ms :: r).
Proof.
  intros st n tid np ms s r (H3 & Hn & Hb). destruct (three_inv _ _ H3) as (a & b & c & ->). unfold total, push_stage. cbn [passes].
  destruct (passes_cons r) as (p & ps & ->).
  assert (MO : forall l, msgs_of (l ++ [AFrag tid ms s]) = msgs_of l ++ ms) by (intro; rewrite msgs_of_app; cbn; now rewrite app_nil_r).
  destruct n as [|[|[|]]]; try lia; destruct np; cbn [nth set_nth firstn map app]; rewrite ?MO, ?app_assoc, <- ?app_assoc; try reflexivity.
  - pose proof (Hb 1%nat ltac:(lia)) as F1. cbn [nth] in F1. subst b. reflexivity.
  - pose proof (Hb 2%nat ltac:(lia)) as F1. cbn [nth] in F1. subst c. reflexivity.
Qed.

Lemma push_lead : forall (st : list (list afrag)) n m f, behind st n -> lead st n -> lead (push_stage n f st) m.
Proof.
  intros st n m f (H3 & Hn & _) L. right. unfold push_stage. rewrite set_nth_nth by auto. destruct L as [[-> _]|L].
  - cbn [Nat.eqb]. destruct (nth 0 st []); discriminate.
  - destruct (0 =? n)%nat eqn:E; auto. destruct (nth n st []); discriminate.
Qed.

Lemma load_seg : forall seg after, one_execution seg -> forall free st n cp, behind st n ->
  (exists free' st' seg', a_load (seg ++ after) free st n cp = Some (Loaded (seg' ++ after) free' st' 3 false false cp []) /\
     loads free st n seg cp free' st' 3 seg' /\ (nonpads seg' < nonpads seg)%nat /\ one_execution seg') \/
  (exists free' st' n', a_load (seg ++ after) free st n cp = a_load after free' st' n' cp /\ behind st' n' /\
     loads free st n seg cp free' st' n' [] /\ ((nonpads seg = 0)%nat -> st' = st)).
Proof.
  induction seg as [|it seg IH]; intros after H1 free st n cp HB.
  - right. exists free, st, n. cbn [app]. splits; auto. unfold loads. splits; auto; try apply HB; intros x Hx; auto.
  - inversion H1 as [|? ? Hit H1']; subst. destruct it as [bs|t ss|tid np ms|? ?]; [| | |discriminate Hit]; cbn [app a_load].
    1,2: destruct (IH after H1' free st n cp HB) as [(free' & st' & seg' & E & (L1 & L2 & L3 & L4 & L5 & L6 & L7 & L8) & N & O)|(free' & st' & n' & E & B & (L1 & L2 & L3 & L4 & L5 & L6 & L7 & L8) & N)];
      [left; exists free', st', seg'|right; exists free', st', n']; (split; [exact E|]); splits; auto;
      try (unfold loads; splits; auto; [intros f Hf; destruct (L5 f Hf) as [|(tid & np & ms & s & X1 & X2)]; [now left|right; exists tid, np, ms, s; split; auto; now right]|intros x Hx; right; now apply L7]);
      try (unfold nonpads in *; cbn [filter is_pad negb length] in *; lia).
    set (fr := AFrag tid ms (hd 0 free)). set (st1 := push_stage n fr st). set (n1 := if np then S n else n).
    assert (P3 : three st1) by (apply set_nth_three, HB).
    assert (PT : total st1 n1 seg = total st n (IExtent tid np ms :: seg)) by (apply push_total; auto).
    assert (PC : concat st1 = concat st ++ [fr]) by (apply push_concat; auto).
    assert (FC : content cp (concat st1) ++ file_lines cp seg = content cp (concat st) ++ file_lines cp (IExtent tid np ms :: seg)).
    { rewrite PC. unfold content. rewrite flat_map_app. cbn [flat_map fr a_tid a_ms file_lines]. rewrite app_nil_r, <- app_assoc. reflexivity. }
    assert (PP : pool st1 seg = pool st (IExtent tid np ms :: seg)).
    { unfold pool. rewrite PC, msgs_of_app. cbn [msgs_of flat_map fr a_ms item_msgs]. rewrite app_nil_r, <- app_assoc. reflexivity. }
    assert (PI : forall f, In f (concat st1) -> In f (concat st) \/ exists tid' np' ms' s', In (IExtent tid' np' ms') (IExtent tid np ms :: seg) /\ f = AFrag tid' ms' s' /\ In s' (0 :: free)).
    { intros f Hf. rewrite PC in Hf. apply in_app_or in Hf. destruct Hf as [Hf|[<-|[]]]; [now left|right].
      exists tid, np, ms, (hd 0 free). splits; [now left|reflexivity|]. destruct free; cbn [hd]; [now left|right; now left]. }
    assert (TF : incl (tl free) free) by (destruct free; cbn [tl]; intros x Hx; [contradiction|now right]).
    assert (PL : lead st n -> lead st1 n1) by (apply push_lead; auto).
    destruct (n1 =? 3)%nat eqn:E3.
    + apply Nat.eqb_eq in E3. left. exists (tl free), st1, seg. rewrite E3 in *. split; [reflexivity|]. splits; auto.
      * unfold loads. splits; auto. intros x Hx. now right.
    + apply Nat.eqb_neq in E3.
      assert (B1 : behind st1 n1).
      { destruct HB as (HB1 & HB2 & HB3). split; [auto|split]. { subst n1. destruct np; lia. }
        intros i Hi. subst st1. unfold push_stage. rewrite set_nth_nth by auto.
        assert ((i =? n)%nat = false) as -> by (apply Nat.eqb_neq; subst n1; destruct np; lia). apply HB3. subst n1. destruct np; lia. }
      destruct (IH after H1' (tl free) st1 n1 cp B1) as [(free' & st' & seg' & E & (L1 & L2 & L3 & L4 & L5 & L6 & L7 & L8) & N & O)|(free' & st' & n' & E & B & (L1 & L2 & L3 & L4 & L5 & L6 & L7 & L8) & N)];
      [left; exists free', st', seg'|right; exists free', st', n']; (split; [exact E|]); splits; auto;
      try (unfold loads; splits; auto; try congruence;
           [intros f Hf; destruct (L5 f Hf) as [X|(tid' & np' & ms' & s & X1 & X2 & X3)];
             [now apply PI|right; exists tid', np', ms', s; splits; auto; [now right|destruct X3 as [X3|X3]; [now left|right; now apply TF]]]
           |intros x Hx; now apply TF, L6|intros x Hx; right; now apply L7]);
      try (unfold nonpads in *; cbn [filter is_pad negb length] in *; lia).
Qed.

(** ** Depleting *)
(** Where the fragments are after a step. *)
Lemma step_in : forall (st : list (list afrag)) n i j more b' i' f, flushed st n -> (i < n)%nat ->
  In f (nth i' (set_nth i (remove_nth j (nth i st []) ++ (if more : bool then [b'] else [])) st) []) ->
  In f (nth i' st []) \/ (i' = i /\ more = true /\ f = b').
Proof.
  intros st n i j more b' i' f (H3 & Hn & _) Hi H. rewrite set_nth_nth in H by (auto; lia).
  destruct (i' =? i)%nat eqn:E; [|now left]. apply Nat.eqb_eq in E. subst i'. apply in_app_or in H.
  destruct H as [H|H]; [left; now apply remove_nth_in in H|]. destruct more; [|contradiction]. destruct H as [<-|[]]. right. auto.
Qed.

Lemma in_concat_nth : forall A (st : list (list A)) f, In f (concat st) <-> exists i, In f (nth i st []).
Proof.
  intros A st f. induction st as [|s st IH]; cbn [concat].
  - split; [contradiction|]. intros ([|i] & H); contradiction.
  - rewrite in_app_iff, IH. split.
    + intros [H|(i & H)]; [now exists 0%nat|now exists (S i)].
    + intros ([|i] & H); [now left|right; eauto].
Qed.

Lemma in_nth_lt : forall (st : list (list afrag)) n i f, flushed st n -> In f (nth i st []) -> (i < n)%nat.
Proof. intros st n i f (_ & _ & H) Hf. destruct (Nat.lt_ge_cases i n); auto. rewrite H in Hf by auto. contradiction. Qed.

Lemma anext_inv : forall cp b b' more evs, anext cp b = Some (b', more, evs) ->
  (a_ms b = [] /\ b' = b /\ more = false /\ evs = []) \/
  (exists m r, a_ms b = m :: r /\ b' = AFrag (a_tid b) r (ts m) /\ more = negb (is_empty r) /\ evs = [show cp (a_tid b) m]).
Proof.
  intros cp [tid [|m r] s] b' more evs H; unfold anext in H; cbn [a_ms a_tid] in *; injection H as <- <- <-.
  - left. auto.
  - right. exists m, r. auto.
Qed.

Lemma content_app : forall cp a b, content cp (a ++ b) = content cp a ++ content cp b.
Proof. intros. apply flat_map_app. Qed.

Lemma deplete_det : forall cp pick k must st n k' st' n' fr' ls k'' st'' n'' fr'' ls'' fuel,
  deplete akey (anext cp) pick fuel k must st n [] = Some (k', st', n', fr', ls) ->
  deplete akey (anext cp) pick fuel k must st n [] = Some (k'', st'', n'', fr'', ls'') ->
  k'' = k' /\ st'' = st' /\ n'' = n' /\ fr'' = fr' /\ ls'' = ls.
Proof. intros. rewrite H in H0. injection H0 as <- <- <- <- <-. auto. Qed.

(** Nothing is lost or duplicated. *)
Lemma deplete_perm : forall cp pick k must st n k' st' n' fr' ls, heap_front pick -> flushed st n ->
  deplete akey (anext cp) pick (S (weight amu st)) k must st n [] = Some (k', st', n', fr', ls) ->
  Permutation (ls ++ content cp (concat st')) (content cp (concat st)).
Proof.
  intros cp pick k must st n k' st' n' fr' ls Hp HF HD.
  set (Inv := fun (s : list (list afrag)) (_ : nat) (_ : list afrag) (acc : list oline) => Permutation (acc ++ content cp (concat s)) (content cp (concat st))).
  destruct (deplete_rule akey (anext cp) pick must amu Inv Inv Hp (anext_total cp)) with (fuel := S (weight amu st)) (k := k) (st := st) (n := n) (fr := @nil afrag) (acc := @nil oline)
    as (k2 & st2 & n2 & fr2 & evs & E & HQ & _); auto.
  - intros s m fr acc i j b b' more evs HFs HI Hi Hb _ HN. cbv zeta.
    set (s1 := set_nth i _ s). assert (HI1 : Inv s1 m fr (acc ++ evs)).
    { unfold Inv in *. eapply Permutation_trans; [|exact HI]. rewrite <- app_assoc. apply Permutation_app_head.
      pose proof (step_perm afrag s i j b (if more then [b'] else []) (proj1 HFs) ltac:(destruct HFs as (_ & ? & _); lia) Hb) as P.
      fold s1 in P. apply (Permutation_flat_map (fun f => map (show cp (a_tid f)) (a_ms f))) in P.
      change (flat_map (fun f => map (show cp (a_tid f)) (a_ms f))) with (content cp) in P.
      change (b :: concat s1) with ([b] ++ concat s1) in P. rewrite !content_app in P.
      destruct (anext_inv _ _ _ _ _ HN) as [(A1 & -> & -> & ->)|(m1 & r & A1 & -> & -> & ->)].
      - cbn [app]. unfold content at 1 in P. cbn [flat_map] in P. rewrite A1 in P. cbn [map app] in P. exact P.
      - assert (EB : content cp [b] = [show cp (a_tid b) m1] ++ map (show cp (a_tid b)) r).
        { unfold content. cbn [flat_map]. rewrite A1, app_nil_r. reflexivity. }
        assert (EB' : content cp (if negb (is_empty r) then [AFrag (a_tid b) r (ts m1)] else []) = map (show cp (a_tid b)) r).
        { destruct r; cbn [is_empty negb]; [reflexivity|]. unfold content. cbn [flat_map a_tid a_ms]. apply app_nil_r. }
        rewrite EB, EB', <- app_assoc in P.
        apply (Permutation_app_inv_l (map (show cp (a_tid b)) r)). eapply Permutation_trans; [|exact P].
        apply Permutation_app_swap_app. }
    destruct (nth 0 s1 []) eqn:E0; cbn [is_empty]; [|exact HI1].
    assert (HF1 : flushed s1 m) by (apply step_flushed; auto).
    assert (SH : concat (shift_stages m s1) = concat s1).
    { destruct (three_inv _ _ (proj1 HF1)) as (x & y & z & E1). rewrite E1 in *. cbn [nth] in E0. subst x. apply shift_spec; auto. lia. }
    unfold Inv in *. rewrite SH. destruct must; exact HI1.
  - unfold Inv. apply Permutation_refl.
  - destruct (deplete_det _ _ _ _ _ _ _ _ _ _ _ _ _ _ _ _ _ HD E) as (-> & -> & -> & -> & ->). exact HQ.
Qed.

Definition below (t : Z) (l : list fmsg) : Prop := forall m, In m l -> t <= ts m.
Definition le_ts (x y : fmsg) : Prop := w_ts (fm_w x) <= w_ts (fm_w y).

(** Everything is in time order so far; [rest] is still in the file. *)
Definition ordered (st : list (list afrag)) (fr : list afrag) (acc : list oline) (rest : list fmsg) : Prop :=
  let all := msgs_of (concat st) ++ rest in
  (forall f, In f (concat st) -> StronglySorted le_ts (a_ms f)) /\
  (forall f, In f (concat st) -> a_ms f = [] -> below (a_stale f) all) /\
  (forall f, In f fr -> below (akey f) all) /\
  chronological acc /\ (forall t, In t (map sh_ts (messages acc)) -> below t all).

Lemma below_incl : forall t l l', incl l' l -> below t l -> below t l'.
Proof. intros t l l' H HB m Hm. apply HB. now apply H. Qed.

Lemma in_msgs : forall s m, In m (msgs_of s) <-> exists f, In f s /\ In m (a_ms f).
Proof. intros. unfold msgs_of. apply in_flat_map. Qed.

Lemma sorted_snoc : forall l x, StronglySorted Z.le l -> Forall (fun y => y <= x) l -> StronglySorted Z.le (l ++ [x]).
Proof.
  induction l as [|a l IH]; intros x HS HF; cbn [app]; [constructor; constructor|]. inversion HS; subst. inversion HF; subst. constructor; auto.
  apply Forall_app. split; auto.
Qed.

Lemma ordered_step : forall st n fr acc rest i j b b' more evs cp, flushed st n -> ordered st fr acc rest -> (i < n)%nat ->
  nth_error (nth i st []) j = Some b ->
  (forall i' b'', (i' < n)%nat -> In b'' (nth i' st []) -> akey b <= akey b'' /\ ((i' < i)%nat -> akey b < akey b'')) ->
  anext cp b = Some (b', more, evs) ->
  (forall m r, a_ms b = m :: r -> below (ts m) rest) ->
  let st1 := set_nth i (remove_nth j (nth i st []) ++ (if more then [b'] else [])) st in
  ordered st1 (if more then fr else b' :: fr) (acc ++ evs) rest.
Proof.
  intros st n fr acc rest i j b b' more evs cp HF (O1 & O2 & O3 & O4 & O5) Hi Hb Hmin HN Hrest st1.
  assert (Ib : In b (concat st)) by (apply in_concat_nth; exists i; eapply nth_error_In; eauto).
  pose proof (anext_inv _ _ _ _ _ HN) as HA.
  assert (I1 : forall f, In f (concat st1) -> In f (concat st) \/ (more = true /\ f = b')).
  { intros f Hf. apply in_concat_nth in Hf. destruct Hf as (i' & Hf). destruct (step_in _ _ _ _ _ _ _ _ HF Hi Hf) as [H|(_ & H1 & H2)]; [left; apply in_concat_nth; eauto|auto]. }
  assert (IB : incl (a_ms b') (a_ms b)).
  { destruct HA as [(_ & -> & _)|(m & r & -> & -> & _)]; intros x Hx; cbn [a_ms] in *; [auto|now right]. }
  assert (IA : incl (msgs_of (concat st1) ++ rest) (msgs_of (concat st) ++ rest)).
  { intros m Hm. apply in_app_or in Hm. apply in_or_app. destruct Hm as [Hm|Hm]; [left|now right].
    apply in_msgs in Hm. destruct Hm as (f & Hf & Hm). apply in_msgs. destruct (I1 f Hf) as [H|[_ ->]]; [eauto|]. exists b. split; auto. }
  (* the message printed is no later than what remains *)
  assert (KM : forall m r, a_ms b = m :: r -> below (ts m) (msgs_of (concat st1) ++ rest)).
  { intros m r EM x Hx. apply in_app_or in Hx. destruct Hx as [Hx|Hx]; [|now apply (Hrest m r)].
    apply in_msgs in Hx. destruct Hx as (f & Hf & Hx).
    assert (KB : akey b = ts m) by (unfold akey; now rewrite EM).
    assert (HD : forall g, StronglySorted le_ts (a_ms g) -> In x (a_ms g) -> akey g <= ts x).
    { intros g Hg Hgx. unfold akey. destruct (a_ms g) as [|y l]; [contradiction|]. inversion Hg as [|? ? _ HFy]; subst.
      destruct Hgx as [->|Hgx]; [lia|]. rewrite Forall_forall in HFy. apply (HFy x Hgx). }
    destruct (I1 f Hf) as [H|[_ ->]].
    - apply in_concat_nth in H. destruct H as (i' & H). destruct (Hmin i' f (in_nth_lt _ _ _ _ HF H) H) as [K _].
      specialize (HD f). rewrite <- KB. etransitivity; [exact K|]. apply HD; auto. apply O1. apply in_concat_nth. eauto.
    - rewrite <- KB. apply HD; auto. }
  unfold ordered. splits.
  - intros f Hf. destruct (I1 f Hf) as [H|[_ ->]]; auto. specialize (O1 b Ib). destruct HA as [(_ & -> & _)|(m & r & EM & -> & _)]; auto.
    rewrite EM in O1. inversion O1; auto.
  - intros f Hf E. destruct (I1 f Hf) as [H|[HM ->]]; [eapply below_incl; [exact IA|now apply O2]|].
    exfalso. destruct HA as [(_ & _ & -> & _)|(m & r & EM & -> & -> & _)]; [discriminate HM|]. cbn [a_ms] in E. subst r. discriminate HM.
  - intros f Hf. assert (Hf' : In f fr \/ (more = false /\ f = b')) by (destruct more; [now left|destruct Hf as [<-|Hf]; auto]).
    destruct Hf' as [H|[HM ->]]; [eapply below_incl; [exact IA|now apply O3]|].
    destruct HA as [(E & -> & _ & _)|(m & r & EM & -> & HM2 & _)].
    + unfold akey. rewrite E. eapply below_incl; [exact IA|]. now apply O2.
    + unfold akey. cbn [a_ms a_stale]. destruct r; [|subst more; discriminate HM]. now apply (KM m []).
  - unfold chronological in *. destruct HA as [(_ & _ & _ & ->)|(m & r & EM & _ & _ & ->)]; [rewrite app_nil_r; auto|].
    rewrite messages_app, map_app. change (map sh_ts (messages [show cp (a_tid b) m])) with [ts m].
    apply sorted_snoc; auto. apply Forall_forall. intros t Ht. apply (O5 t Ht). apply in_or_app. left. apply in_msgs. exists b. split; auto. rewrite EM. now left.
  - intros t Ht. destruct HA as [(_ & _ & _ & ->)|(m & r & EM & _ & _ & ->)]; [rewrite app_nil_r in Ht; eapply below_incl; [exact IA|auto]|].
    rewrite messages_app, map_app in Ht. change (map sh_ts (messages [show cp (a_tid b) m])) with [ts m] in Ht.
    apply in_app_or in Ht. destruct Ht as [Ht|[<-|[]]]; [eapply below_incl; [exact IA|auto]|]. now apply (KM m r).
Qed.

Lemma ordered_shift : forall st fr acc rest n, ordered st fr acc rest -> flushed st n -> (0 < n)%nat -> nth 0 st [] = [] ->
  ordered (shift_stages n st) fr acc rest.
Proof.
  intros st fr acc rest n HO HF Hn H0. unfold ordered in *.
  assert (SH : concat (shift_stages n st) = concat st); [|rewrite SH; exact HO].
  destruct (three_inv _ _ (proj1 HF)) as (x & y & z & E1). subst st. cbn [nth] in H0. subst x. now apply shift_spec.
Qed.

(** Depleting everything. *)
Lemma deplete_all : forall cp pick k st n k' st' n' fr' ls acc, heap_front pick -> flushed st n ->
  deplete akey (anext cp) pick (S (weight amu st)) k true st n [] = Some (k', st', n', fr', ls) ->
  ordered st [] acc [] -> chronological (acc ++ ls).
Proof.
  intros cp pick k st n k' st' n' fr' ls acc Hp HF HD HO.
  set (Inv := fun (s : list (list afrag)) (_ : nat) (fr : list afrag) (ac : list oline) => ordered s fr ac []).
  destruct (deplete_rule akey (anext cp) pick true amu Inv Inv Hp (anext_total cp)) with (fuel := S (weight amu st)) (k := k) (st := st) (n := n) (fr := @nil afrag) (acc := acc)
    as (k2 & st2 & n2 & fr2 & evs & E & HQ & _); auto.
  - intros s m fr ac i j b b' more evs HFs HI Hi Hb Hmin HN. cbv zeta.
    pose proof (ordered_step _ _ _ _ _ _ _ _ _ _ _ _ HFs HI Hi Hb Hmin HN ltac:(intros ? ? ? ? [])) as HI1. cbv zeta in HI1.
    set (s1 := set_nth i _ s) in *. destruct (nth 0 s1 []) eqn:E0; cbn [is_empty]; [|exact HI1].
    apply ordered_shift; auto; [|lia]. apply step_flushed; auto.
  - destruct (deplete_det _ _ _ _ _ _ _ _ _ _ _ _ _ _ _ _ _ HD E) as (-> & -> & -> & -> & ->). apply HQ.
Qed.

(** Depleting the first of three stages. *)
Definition placed (st : list (list afrag)) (rest : list fmsg) : Prop :=
  let m i := msgs_of (nth i st []) in
  (forall x y, In x (m 0%nat) -> In y (m 2%nat) -> ts x <= ts y) /\
  (forall x y, In x (m 0%nat) \/ In x (m 1%nat) -> In y rest -> ts x <= ts y) /\
  m 2%nat <> [] /\ (nth 0 st [] <> [] \/ m 1%nat <> []).

Lemma key_below : forall st fr acc rest n f y, ordered st fr acc rest -> flushed st n -> In f (concat st) ->
  (forall x, In x (a_ms f) -> ts x <= ts y) -> In y (msgs_of (concat st) ++ rest) -> akey f <= ts y.
Proof.
  intros st fr acc rest n f y (_ & O2 & _) HF Hf Hx Hy. unfold akey. destruct (a_ms f) as [|x l] eqn:E; [now apply O2|apply Hx; now left].
Qed.

Lemma deplete_first : forall cp pick k st k' st' n' fr' ls acc rest, heap_front pick -> flushed st 3 ->
  deplete akey (anext cp) pick (S (weight amu st)) k false st 3 [] = Some (k', st', n', fr', ls) ->
  ordered st [] acc rest -> placed st rest ->
  n' = 2%nat /\ ordered st' fr' (acc ++ ls) rest /\ (msgs_of (nth 0 st' []) <> [] \/ msgs_of (nth 1 st' []) <> []) /\
  (forall i, incl (msgs_of (nth i st' [])) (msgs_of (nth (S i) st []))).
Proof.
  intros cp pick k st k' st' n' fr' ls acc rest Hp HF HD HO HP.
  set (Inv := fun (s : list (list afrag)) (m : nat) (fr : list afrag) (ac : list oline) => m = 3%nat /\ ordered s fr ac rest /\ placed s rest /\
    (forall i, incl (msgs_of (nth i s [])) (msgs_of (nth i st [])))).
  set (Q := fun (s : list (list afrag)) (m : nat) (fr : list afrag) (ac : list oline) => m = 2%nat /\ ordered s fr ac rest /\
    (msgs_of (nth 0 s []) <> [] \/ msgs_of (nth 1 s []) <> []) /\ (forall i, incl (msgs_of (nth i s [])) (msgs_of (nth (S i) st [])))).
  destruct (deplete_rule akey (anext cp) pick false amu Inv Q Hp (anext_total cp)) with (fuel := S (weight amu st)) (k := k) (st := st) (n := 3%nat) (fr := @nil afrag) (acc := acc)
    as (k2 & st2 & n2 & fr2 & evs & E & HQ & _); auto.
  - intros s m fr ac i j b b' more evs HFs (-> & HI & (P1 & P2 & P3 & P4) & HS) Hi Hb Hmin HN. cbv zeta.
    assert (Ib : In b (nth i s [])) by (eapply nth_error_In; eauto).
    assert (Icb : In b (concat s)) by (apply in_concat_nth; eauto).
    (* a fragment that bounds the message *)
    assert (RB : forall m1 r, a_ms b = m1 :: r -> below (ts m1) rest).
    { intros m1 r EM y Hy. assert (KB : akey b = ts m1) by (unfold akey; now rewrite EM).
      assert (exists i' f, (i' < 2)%nat /\ In f (nth i' s [])) as (i' & f & Hi' & Hf).
      { destruct P4 as [P4|P4].
        - destruct (nth 0 s []) as [|f l] eqn:E0; [congruence|]. exists 0%nat, f. split; [lia|]. rewrite E0. now left.
        - destruct (msgs_of (nth 1 s [])) as [|x l] eqn:E1; [congruence|]. assert (Hx : In x (msgs_of (nth 1 s []))) by (rewrite E1; now left).
          apply in_msgs in Hx. destruct Hx as (f & Hf & _). exists 1%nat, f. split; [lia|auto]. }
      destruct (Hmin i' f ltac:(lia) Hf) as [K _]. rewrite <- KB. etransitivity; [exact K|].
      eapply key_below; [exact HI|exact HFs| | |apply in_or_app; now right].
      - apply in_concat_nth. eauto.
      - intros x Hx. apply P2; auto. assert (HX : In x (msgs_of (nth i' s []))) by (apply in_msgs; eauto).
        destruct i' as [|[|]]; [now left|now right|lia]. }
    pose proof (ordered_step _ _ _ _ _ _ _ _ _ _ _ _ HFs HI Hi Hb Hmin HN RB) as HI1. cbv zeta in HI1.
    set (s1 := set_nth i (remove_nth j (nth i s []) ++ (if more then [b'] else [])) s) in *.
    assert (HF1 : flushed s1 3) by (apply step_flushed; auto).
    pose proof (anext_inv _ _ _ _ _ HN) as HA.
    assert (SUB : forall i', incl (msgs_of (nth i' s1 [])) (msgs_of (nth i' s []))).
    { intros i' x Hx. apply in_msgs in Hx. destruct Hx as (f & Hf & Hx). apply in_msgs. destruct (step_in _ _ _ _ _ _ _ _ HFs Hi Hf) as [H|(-> & _ & ->)]; [eauto|].
      exists b. split; auto. destruct HA as [(_ & -> & _)|(m1 & r & EM & -> & _)]; [auto|]. cbn [a_ms] in Hx. rewrite EM. now right. }
    (* the messages of the last stage stay as long as the first has fragments *)
    assert (M2 : nth 0 s [] <> [] -> msgs_of (nth 2 s1 []) <> []).
    { intros N0. destruct (Nat.eq_dec i 2) as [->|Hne].
      - destruct HA as [(E0 & -> & -> & _)|(m1 & r & EM & _)].
        + assert (PP : Permutation (msgs_of (nth 2 s [])) (msgs_of (nth 2 s1 []))).
          { subst s1. rewrite set_nth_nth by (try apply HFs; lia). cbn [Nat.eqb]. rewrite app_nil_r.
            pose proof (remove_nth_perm _ _ _ _ Hb) as RP. apply (Permutation_flat_map a_ms) in RP. cbn [flat_map] in RP. rewrite E0 in RP. exact RP. }
          intro EN. rewrite EN in PP. apply Permutation_sym, Permutation_nil in PP. contradiction.
        + exfalso. destruct (nth 0 s []) as [|f l] eqn:E0; [congruence|]. assert (Hf : In f (nth 0 s [])) by (rewrite E0; now left).
          destruct (Hmin 0%nat f ltac:(lia) Hf) as [_ K]. specialize (K ltac:(lia)). unfold akey at 1 in K. rewrite EM in K.
          assert (Hm1 : In m1 (msgs_of (nth 2 s []))) by (apply in_msgs; exists b; split; auto; rewrite EM; now left).
          assert (akey f <= ts m1); [|lia].
          eapply key_below; [exact HI|exact HFs|apply in_concat_nth; eauto| |apply in_or_app; left; apply in_msgs; exists b; split; auto; rewrite EM; now left].
          intros x Hx. apply P1; auto. apply in_msgs. exists f. split; [now left|auto].
      - assert (nth 2 s1 [] = nth 2 s []) as ->; [|auto]. subst s1. rewrite set_nth_nth by (try apply HFs; lia).
        destruct i as [|[|[|]]]; try lia; reflexivity. }
    (* one message goes when the first stage is empty *)
    assert (M1 : nth 0 s [] = [] -> msgs_of (nth 1 s1 []) <> [] \/ msgs_of (nth 2 s1 []) <> []).
    { intro N0. destruct P4 as [P4|P4]; [congruence|].
      destruct (Nat.eq_dec i 1) as [->|Hne].
      - right. assert (nth 2 s1 [] = nth 2 s []) as ->; [|auto]. subst s1. rewrite set_nth_nth by (try apply HFs; lia). reflexivity.
      - left. assert (nth 1 s1 [] = nth 1 s []) as ->; [|auto]. subst s1. rewrite set_nth_nth by (try apply HFs; lia).
        destruct i as [|[|[|]]]; try lia; reflexivity. }
    destruct (nth 0 s1 []) as [|f0 l0] eqn:E0; cbn [is_empty].
    + assert (NS : forall i', nth i' (shift_stages 3 s1) [] = nth (S i') s1 []).
      { destruct (three_inv _ _ (proj1 HF1)) as (x & y & z & E1). rewrite E1 in *. cbn [nth] in E0. subst x. apply shift_spec; auto; lia. }
      unfold Q. split; [reflexivity|]. split; [apply ordered_shift; auto; lia|]. split.
      * rewrite !NS. destruct (nth 0 s []) eqn:N0; [apply M1; auto|]. right. apply M2. discriminate.
      * intros i'. rewrite NS. intros x Hx. apply HS, SUB, Hx.
    + assert (N0 : nth 0 s [] <> []).
      { intro N. subst s1. rewrite set_nth_nth in E0 by (try apply HFs; lia). destruct (0 =? i)%nat eqn:Ei; [|congruence].
        apply Nat.eqb_eq in Ei. subst i. rewrite N in Hb. destruct j; discriminate Hb. }
      unfold Inv. split; [reflexivity|]. split; [exact HI1|]. split.
      * unfold placed. splits.
        -- intros x y Hx Hy. apply P1; now apply SUB.
        -- intros x y Hx Hy. apply P2; auto. destruct Hx as [Hx|Hx]; [left|right]; now apply SUB.
        -- now apply M2.
        -- left. rewrite E0. discriminate.
      * intros i' x Hx. apply HS, SUB, Hx.
  - intros s m fr ac HFs (-> & HI & (P1 & P2 & P3 & P4) & HS) HE. exfalso. rewrite HE in P3. now apply P3.
  - unfold Inv. split; [reflexivity|]. split; [exact HO|]. split; [exact HP|]. intros i x Hx. exact Hx.
  - destruct (deplete_det _ _ _ _ _ _ _ _ _ _ _ _ _ _ _ _ _ HD E) as (-> & -> & -> & -> & ->). exact HQ.
Qed.

(** Depleting the first of three stages when they are in order. *)
Lemma deplete_inorder : forall cp pick k s0 s1 s2 k' st' n' fr' ls, heap_front pick ->
  deplete akey (anext cp) pick (S (weight amu [s0; s1; s2])) k false [s0; s1; s2] 3 [] = Some (k', st', n', fr', ls) ->
  s0 <> [] -> (forall f, In f (s0 ++ s1 ++ s2) -> a_ms f <> []) ->
  (forall x y, In x (msgs_of s0) -> In y (msgs_of (s1 ++ s2)) -> ts x <= ts y) ->
  st' = [s1; s2; []] /\ n' = 2%nat.
Proof.
  intros cp pick k s0 s1 s2 k' st' n' fr' ls Hp HD H0 HN HL.
  set (Inv := fun (s : list (list afrag)) (m : nat) (_ : list afrag) (_ : list oline) => m = 3%nat /\ exists t, s = [t; s1; s2] /\ t <> [] /\
    (forall f, In f t -> a_ms f <> []) /\ incl (msgs_of t) (msgs_of s0)).
  set (Q := fun (s : list (list afrag)) (m : nat) (_ : list afrag) (_ : list oline) => s = [s1; s2; []] /\ m = 2%nat).
  destruct (deplete_rule akey (anext cp) pick false amu Inv Q Hp (anext_total cp)) with (fuel := S (weight amu [s0; s1; s2])) (k := k) (st := [s0; s1; s2]) (n := 3%nat) (fr := @nil afrag) (acc := @nil oline)
    as (k2 & st2 & n2 & fr2 & evs & E & HQ & _); auto.
  - intros s m fr ac i j b b' more evs HFs (-> & t & -> & T0 & TN & TI) Hi Hb Hmin HNx. cbv zeta.
    assert (i = 0%nat) as ->.
    { destruct i as [|i]; auto. exfalso. destruct t as [|f t]; [congruence|].
      destruct (Hmin 0%nat f ltac:(lia) (or_introl eq_refl)) as [_ K]. specialize (K ltac:(lia)).
      assert (Ib : In b (s1 ++ s2)).
      { apply nth_error_In in Hb. apply in_or_app. destruct i as [|[|]]; try lia; cbn [nth] in Hb; auto. }
      assert (NB : a_ms b <> []) by (apply HN; apply in_or_app; now right).
      pose proof (TN f (or_introl eq_refl)) as NF. unfold akey in K. destruct (a_ms f) as [|x lf] eqn:EF; [congruence|]. destruct (a_ms b) as [|y lb] eqn:EB; [congruence|].
      assert (ts x <= ts y); [|lia]. apply HL.
      - apply TI. apply in_msgs. exists f. split; [now left|]. rewrite EF. now left.
      - apply in_msgs. exists b. split; auto. rewrite EB. now left. }
    cbn [nth set_nth] in *.
    assert (Ib : In b t) by (eapply nth_error_In; eauto).
    destruct (remove_nth j t ++ (if more then [b'] else [])) as [|f0 l0] eqn:E0; cbn [is_empty].
    + split; reflexivity.
    + split; [reflexivity|]. exists (f0 :: l0). splits; auto; [discriminate| |].
      * intros f Hf. rewrite <- E0 in Hf. apply in_app_or in Hf. destruct Hf as [Hf|Hf]; [apply remove_nth_in in Hf; auto|].
        destruct more eqn:EM; [|contradiction]. destruct Hf as [<-|[]].
        destruct (anext_inv _ _ _ _ _ HNx) as [(_ & _ & ? & _)|(m & r & A1 & -> & EM' & _)]; [discriminate|]. cbn [a_ms]. destruct r; [discriminate EM'|discriminate].
      * intros x Hx. apply TI. rewrite <- E0 in Hx. apply in_msgs in Hx. destruct Hx as (f & Hf & Hx). apply in_msgs. apply in_app_or in Hf.
        destruct Hf as [Hf|Hf]; [apply remove_nth_in in Hf; eauto|]. destruct more; [|contradiction]. destruct Hf as [<-|[]]. exists b. split; auto.
        destruct (anext_inv _ _ _ _ _ HNx) as [(_ & -> & _)|(m & r & A1 & -> & _)]; auto. cbn [a_ms] in Hx. rewrite A1. now right.
  - intros s m fr ac HFs (-> & t & -> & T0 & _) HE. exfalso. specialize (HE 0%nat). cbn [nth] in HE. congruence.
  - split; [reflexivity|split; [lia|]]. intros i Hi. destruct i as [|[|[|[|]]]]; try lia; reflexivity.
  - split; [reflexivity|]. exists s0. splits; auto; [|intros x Hx; exact Hx]. intros f Hf. apply HN. apply in_or_app. now left.
  - destruct (deplete_det _ _ _ _ _ _ _ _ _ _ _ _ _ _ _ _ _ HD E) as (-> & -> & -> & -> & ->). exact HQ.
Qed.

(** ** A whole execution *)
Definition enough (T : list (list fmsg)) : Prop := let R := removelast T in
  ((3 <= length R)%nat -> nth 0 R [] <> [] \/ nth 1 R [] <> []) /\ Forall (fun p => p <> []) (skipn 2 R).

Definition in_time (st : list (list afrag)) (n : nat) (seg : list item) (free : list Z) (acc : list oline) : Prop :=
  ordered st [] acc (flat_map item_msgs seg) /\ (extents_nonempty seg \/ forall t, In t (0 :: free) -> below t (pool st seg)) /\
  extents_sorted seg /\ displaced 2 (total st n seg) /\ enough (total st n seg).

Lemma load_in_time : forall free st n seg cp free' st' n' seg' acc, loads free st n seg cp free' st' n' seg' ->
  in_time st n seg free acc -> in_time st' n' seg' free' acc.
Proof.
  intros free st n seg cp free' st' n' seg' acc (L1 & L2 & L3 & L4 & L5 & L6 & L7 & L8) ((O1 & O2 & O3 & O4 & O5) & T2 & T3 & T4 & T5).
  unfold in_time. rewrite L2, L4. splits; auto.
  - unfold ordered. change (msgs_of (concat st') ++ flat_map item_msgs seg') with (pool st' seg'). rewrite L4. splits; auto.
    + intros f Hf. destruct (L5 f Hf) as [H|(tid & np & ms & s & X1 & -> & X3)]; [now apply O1|]. cbn [a_ms]. apply (T3 _ _ _ X1).
    + intros f Hf E. destruct (L5 f Hf) as [H|(tid & np & ms & s & X1 & -> & X3)]; [now apply O2|]. cbn [a_ms a_stale] in *.
      destruct T2 as [T2|T2]; [exfalso; now apply (T2 _ _ _ X1)|now apply T2].

  - destruct T2 as [T2|T2]; [left|right].
    + intros tid np ms Hin. eapply T2; eauto.
    + intros t [<-|Ht]; apply T2; [now left|right; auto].
  - intros tid np ms Hin. eapply T3; eauto.
Qed.

Lemma total_three : forall (s0 s1 s2 : list afrag) seg, total [s0; s1; s2] 3 seg = msgs_of s0 :: msgs_of s1 :: msgs_of s2 :: passes seg.
Proof. intros. unfold total. cbn [firstn map nth]. destruct (passes_cons seg) as (p & ps & ->). reflexivity. Qed.

Lemma total_two : forall (s0 s1 : list afrag) seg, total [s0; s1; []] 2 seg = msgs_of s0 :: msgs_of s1 :: passes seg.
Proof. intros. unfold total. cbn [firstn map nth]. destruct (passes_cons seg) as (p & ps & ->). reflexivity. Qed.

Lemma removelast_three : forall A (a b c : A) p ps, removelast (a :: b :: c :: p :: ps) = a :: b :: c :: removelast (p :: ps).
Proof. reflexivity. Qed.

Lemma flushed_two : forall (st : list (list afrag)), flushed st 2 -> exists a b, st = [a; b; []].
Proof.
  intros st (H3 & _ & H). destruct (three_inv _ _ H3) as (a & b & c & ->). exists a, b. specialize (H 2%nat ltac:(lia)). cbn [nth] in H. now subst c.
Qed.

Lemma deplete_in_time : forall cp pick k st k' st' n' fr' ls acc seg free, heap_front pick -> flushed st 3 ->
  deplete akey (anext cp) pick (S (weight amu st)) k false st 3 [] = Some (k', st', n', fr', ls) ->
  flushed st' n' -> in_time st 3 seg free acc -> in_time st' n' seg (map akey fr' ++ free) (acc ++ ls).
Proof.
  intros cp pick k st k' st' n' fr' ls acc seg free Hp HF HD HF' (O & T2 & T3 & T4 & T5).
  destruct (three_inv _ _ (proj1 HF)) as (s0 & s1 & s2 & ->). rewrite total_three in *. destruct (passes_cons seg) as (p & ps & EP).
  unfold enough in T5. rewrite EP, removelast_three in T5. cbn [length nth skipn] in T5. destruct T5 as [E1 E2]. specialize (E1 ltac:(lia)).
  inversion E2 as [|? ? E3 E4]; subst.
  assert (HP : placed [s0; s1; s2] (flat_map item_msgs seg)).
  { unfold placed. cbn [nth]. splits; auto.
    - intros x y Hx Hy. apply (T4 0%nat 2%nat); [lia|exact Hx|exact Hy].
    - intros x y Hx Hy. apply passes_in in Hy. destruct Hy as (j & Hy). rewrite EP in Hy. rewrite EP in T4.
      destruct Hx as [Hx|Hx]; [apply (T4 0%nat (3 + j)%nat); [lia|exact Hx|exact Hy]|apply (T4 1%nat (3 + j)%nat); [lia|exact Hx|exact Hy]].
    - destruct E1 as [E1|E1]; [left|now right]. intros ->. now apply E1. }
  destruct (deplete_first _ _ _ _ _ _ _ _ _ _ _ Hp HF HD O HP) as (-> & O' & M & I).
  destruct (flushed_two _ HF') as (t0 & t1 & ->). pose proof (I 0%nat) as I0. pose proof (I 1%nat) as I1. cbn [nth] in *. clear I.
  assert (PI : incl (pool [t0; t1; []] seg) (pool [s0; s1; s2] seg)).
  { unfold pool. cbn [concat]. rewrite !app_nil_r, !msgs_of_app. intros x Hx. rewrite !in_app_iff in *. intuition auto. }
  unfold in_time. rewrite total_two, EP. splits; auto.
  - destruct O' as (A1 & A2 & A3 & A4 & A5). unfold ordered. splits; auto. intros f [].
  - destruct T2 as [T2|T2]; [now left|right]. intros t Ht. destruct Ht as [<-|Ht]; [eapply below_incl; [exact PI|apply T2; now left]|].
    apply in_app_or in Ht. destruct Ht as [Ht|Ht].
    + apply in_map_iff in Ht. destruct Ht as (f & <- & Hf). destruct O' as (_ & _ & A3 & _). now apply A3.
    + eapply below_incl; [exact PI|apply T2; now right].
  - rewrite EP in T4. apply (displaced_sub 2 1 (msgs_of s0 :: msgs_of s1 :: msgs_of s2 :: p :: ps)); [|exact T4]. intros [|[|i]]; cbn [nth Nat.add]; [exact I0|exact I1|].
    replace (i + 1)%nat with (S i) by lia. cbn [nth]. intros x Hx. exact Hx.
  - unfold enough. change (removelast (msgs_of t0 :: msgs_of t1 :: p :: ps)) with (msgs_of t0 :: msgs_of t1 :: removelast (p :: ps)).
    cbn [length nth skipn]. split; [intro; exact M|exact E4].
Qed.

Lemma behind_flushed : forall (st : list (list afrag)) n, flushed st n -> (n <= 2)%nat -> behind st n.
Proof. intros st n (H3 & _ & H) Hn. split; [auto|split; [lia|]]. intros i Hi. apply H. lia. Qed.

Lemma flush_flushed : forall (st : list (list afrag)) n, behind st n -> flushed st (flush_n st n).
Proof.
  intros st n (H3 & Hn & Hf). unfold flush_n. destruct (nth n st []) eqn:E; cbn [is_empty].
  - split; [auto|split; [lia|]]. intros i Hi. destruct (Nat.eq_dec i n); [congruence|]. apply Hf. lia.
  - split; [auto|split; [lia|]]. intros i Hi. apply Hf. lia.
Qed.

Lemma empty_three : forall A (st : list (list A)), three st -> (forall i, nth i st [] = []) -> st = [[]; []; []].
Proof.
  intros A st H3 H. destruct (three_inv _ _ H3) as (a & b & c & ->).
  pose proof (H 0%nat). pose proof (H 1%nat). pose proof (H 2%nat). cbn [nth] in *. congruence.
Qed.

(** The execution at the end of the file. *)
Lemma run_last : forall pick, heap_front pick -> forall fuel k seg free st n cp, one_execution seg -> flushed st n -> (n <= 2)%nat ->
  (nonpads seg + 1 <= fuel)%nat ->
  exists P, a_run pick fuel k seg free st n cp = Some P /\ Permutation P (content cp (concat st) ++ file_lines cp seg) /\
   forall acc, in_time st n seg free acc -> chronological (acc ++ P).
Proof.
  intros pick Hp. induction fuel as [|fuel IH]; intros k seg free st n cp H1 HF Hn Hfu; [lia|]. cbn [a_run].
  destruct (load_seg seg [] H1 free st n cp (behind_flushed _ _ HF Hn)) as [(free' & st' & seg' & E & L & N & O)|(free' & st' & n' & E & B & L & N)];
    rewrite app_nil_r in E; rewrite E; clear E.
  - rewrite app_nil_r. cbn [l_cp l_must l_stages l_n l_done l_lines l_items l_free].
    assert (F3 : flushed st' 3) by (split; [apply L|split; [lia|]]; intros i Hi; apply nth_overflow; destruct L as (L1 & _); unfold three in L1; lia).
    destruct (deplete_shape cp pick k false st' 3 Hp F3) as (k' & st2 & n2 & fr2 & ls & ED & FL2 & N2 & _). rewrite ED.
    destruct (IH k' seg' (map akey fr2 ++ free') st2 n2 cp O FL2 N2 ltac:(lia)) as (P & E & PP & PC). rewrite E. exists (ls ++ P). splits; auto.
    + cbn [app]. destruct L as (_ & _ & L3 & _). rewrite <- L3. eapply Permutation_trans; [apply Permutation_app_head, PP|].
      rewrite app_assoc. apply Permutation_app_tail. eapply deplete_perm; eauto.
    + intros acc HT. rewrite app_assoc. apply PC. eapply deplete_in_time; eauto. eapply load_in_time; eauto.
  - cbn [a_load l_cp l_must l_stages l_n l_done l_lines l_items l_free app].
    destruct (deplete_shape cp pick k true st' (flush_n st' n') Hp (flush_flushed _ _ B)) as (k' & st2 & n2 & fr2 & ls & ED & FL2 & N2 & M). rewrite ED.
    exists ls. destruct (M eq_refl) as [-> M2]. pose proof (empty_three _ _ (proj1 FL2) M2) as ->. splits; auto.
    + destruct L as (_ & _ & L3 & _). rewrite <- L3. cbn [file_lines]. rewrite app_nil_r.
      pose proof (deplete_perm _ _ _ _ _ _ _ _ _ _ _ Hp (flush_flushed _ _ B) ED) as PP. cbn [concat content flat_map app] in PP. now rewrite app_nil_r in PP.
    + intros acc HT. apply (deplete_all _ _ _ _ _ _ _ _ _ _ acc Hp (flush_flushed _ _ B) ED). apply (load_in_time _ _ _ _ _ _ _ _ _ _ L HT).
Qed.

(** An execution followed by another one. *)
Definition settled (st : list (list afrag)) (n : nat) (seg : list item) : Prop :=
  lead st n /\ (forall f, In f (concat st) -> a_ms f <> []) /\ extents_nonempty seg /\ displaced 1 (total st n seg) /\ passes_nonempty (total st n seg).

Lemma run_then : forall pick j cp' after, heap_front pick -> forall fuel F k seg free st n cp, one_execution seg -> flushed st n -> (n <= 2)%nat ->
  (nonpads seg + 1 + F <= fuel)%nat -> settled st n seg ->
  exists P fuel' k' free', (F <= fuel')%nat /\
   a_run pick fuel k (seg ++ ICheckpoint j cp' :: after) free st n cp =
     option_map (app P) (a_run pick fuel' k' (ICheckpoint j cp' :: after) free' [[]; []; []] 0 cp) /\
   Permutation P (content cp (concat st) ++ file_lines cp seg) /\ forall acc, in_time st n seg free acc -> chronological (acc ++ P).
Proof.
  intros pick j cp' after Hp. induction fuel as [|fuel IH]; intros F k seg free st n cp H1 HF Hn Hfu (S1 & S2 & S3 & S4 & S5); [lia|].
  destruct (load_seg seg (ICheckpoint j cp' :: after) H1 free st n cp (behind_flushed _ _ HF Hn)) as [(free' & st' & seg' & E & L & N & O)|(free' & st' & n' & E & B & L & N)].
  - cbn [a_run]. rewrite E. clear E. cbn [l_cp l_must l_stages l_n l_done l_lines l_items l_free].
    assert (F3 : flushed st' 3) by (split; [apply L|split; [lia|]]; intros i Hi; apply nth_overflow; destruct L as (L1 & _); unfold three in L1; lia).
    destruct (deplete_shape cp pick k false st' 3 Hp F3) as (k' & st2 & n2 & fr2 & ls & ED & FL2 & N2 & _). rewrite ED.
    assert (HT : forall acc, in_time st n seg free acc -> in_time st2 n2 seg' (map akey fr2 ++ free') (acc ++ ls))
      by (intros acc HT; eapply deplete_in_time; eauto; eapply load_in_time; eauto).
    pose proof (deplete_perm _ _ _ _ _ _ _ _ _ _ _ Hp F3 ED) as DP.
    destruct L as (L1 & L2 & L3 & L4 & L5 & L6 & L7 & L8). rewrite <- L2 in S4, S5.
    destruct (three_inv _ _ L1) as (s0 & s1 & s2 & ->). rewrite total_three in *. destruct (passes_cons seg') as (p & ps & EP).
    unfold passes_nonempty in S5. rewrite EP, removelast_three in S5. inversion S5 as [|? ? N0 S6]; subst. inversion S6 as [|? ? N1 S7]; subst.
    assert (NF : forall f, In f (s0 ++ s1 ++ s2) -> a_ms f <> []).
    { intros f Hf. destruct (L5 f) as [H|(tid & np & ms & s & X1 & -> & X3)]; [cbn [concat]; now rewrite app_nil_r|now apply S2|]. cbn [a_ms]. now apply (S3 _ _ _ X1). }
    destruct (deplete_inorder _ _ _ _ _ _ _ _ _ _ _ Hp ED) as [-> ->]; auto.
    { intros ->. now apply N0. }
    { intros x y Hx Hy. rewrite msgs_of_app in Hy. apply in_app_or in Hy. destruct Hy as [Hy|Hy]; [apply (S4 0%nat 1%nat)|apply (S4 0%nat 2%nat)]; auto. }
    destruct (IH F k' seg' (map akey fr2 ++ free') [s1; s2; []] 2%nat cp O FL2 ltac:(lia) ltac:(lia)) as (P & fuel' & k2 & free2 & HFu & E & PP & PC).
    { unfold settled. rewrite total_two. splits.
      - right. cbn [nth]. intros ->. now apply N1.
      - intros f Hf. apply NF. cbn [concat] in Hf. rewrite app_nil_r in Hf. apply in_or_app. now right.
      - intros tid np ms Hin. eapply S3; eauto.
      - apply (displaced_sub 1 1 (msgs_of s0 :: msgs_of s1 :: msgs_of s2 :: passes seg')); [|exact S4]. intros i. replace (i + 1)%nat with (S i) by lia. intros x Hx. exact Hx.
      - unfold passes_nonempty. rewrite EP. exact S6. }
    exists (ls ++ P), fuel', k2, free2. rewrite E. splits; auto.
    + destruct (a_run pick fuel' k2 _ free2 _ 0 cp); cbn [option_map app]; [now rewrite app_assoc|reflexivity].
    + rewrite <- L3. eapply Permutation_trans; [apply Permutation_app_head, PP|]. rewrite app_assoc. apply Permutation_app_tail, DP.
    + intros acc HA. rewrite app_assoc. apply PC. now apply HT.
  - destruct L as (L1 & L2 & L3 & L4 & L5 & L6 & L7 & L8). pose proof L1 as L1'. destruct (L8 S1) as [[-> LE]|LE].
    + pose proof (empty_three _ _ L1 LE) as ->. exists [], (S fuel), k, free'. splits; [lia| | |].
      * cbn [a_run]. rewrite E. cbn [option_map app].
        match goal with |- context [match ?X with Some _ => _ | None => None end = _] => destruct X as [l|] end; [|reflexivity].
        destruct (deplete _ _ _ _ _ _ _ _ _) as [((((? & ?) & ?) & ?) & ?)|]; [|reflexivity].
        destruct (l_done l); [reflexivity|]. destruct (a_run _ _ _ _ _ _ _ _); reflexivity.
      * cbn [concat content flat_map file_lines app] in L3. rewrite <- L3. apply Permutation_refl.
      * intros acc ((_ & _ & _ & A4 & _) & _). now rewrite app_nil_r.
    + cbn [a_run]. rewrite E. cbn [a_load]. destruct (nth 0 st' []) as [|f0 l0] eqn:E0; [congruence|]. clear LE. cbn [is_empty negb l_cp l_must l_stages l_n l_done l_lines l_items l_free].
      destruct (deplete_shape cp pick k true st' (flush_n st' n') Hp (flush_flushed _ _ B)) as (k' & st2 & n2 & fr2 & ls & ED & FL2 & N2 & M). rewrite ED.
      destruct (M eq_refl) as [-> M2]. pose proof (empty_three _ _ (proj1 FL2) M2) as ->.
      exists ls, fuel, k', (map akey fr2 ++ free'). splits; [lia| | |].
      * destruct (a_run pick fuel k' _ _ _ 0 cp); reflexivity.
      * rewrite <- L3. cbn [file_lines]. rewrite app_nil_r.
        pose proof (deplete_perm _ _ _ _ _ _ _ _ _ _ _ Hp (flush_flushed _ _ B) ED) as PP. cbn [concat content flat_map app] in PP. now rewrite app_nil_r in PP.
      * intros acc HT. apply (deplete_all _ _ _ _ _ _ _ _ _ _ acc Hp (flush_flushed _ _ B) ED).
        assert (L : loads free st n seg cp free' st' n' []) by (unfold loads; splits; auto). apply (load_in_time _ _ _ _ _ _ _ _ _ _ L HT).
Qed.

Lemma run_checkpoint : forall pick fuel k j cp' r free cp,
  a_run pick fuel k (ICheckpoint j cp' :: r) free [[]; []; []] 0 cp = option_map (cons LNewExecution) (a_run pick fuel k r free [[]; []; []] 0 cp').
Proof.
  intros. destruct fuel as [|fuel]; [reflexivity|]. cbn [a_run a_load nth is_empty negb]. change (all_empty [[]; []; []]) with true. cbv iota.
  destruct (a_load r free [[]; []; []] 0 cp') as [l|]; [|reflexivity]. cbn [l_cp l_must l_stages l_n l_done l_lines l_items l_free].
  destruct (deplete _ _ _ _ _ _ _ _ _) as [((((? & ?) & ?) & ?) & ?)|]; [|reflexivity].
  destruct (l_done l); [reflexivity|]. destruct (a_run _ _ _ _ _ _ _ _); reflexivity.
Qed.
