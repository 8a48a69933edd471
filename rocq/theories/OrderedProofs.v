(** Facts about ordered decompression (Ordered.v). *)
From Verif Require Import Base BaseProofs Printf Encoder Wire LogHeader LogHeaderProofs EncoderProofs Decode DecodeProofs Decoder FileSpec DecoderProofs Ordered.
From Coq Require Import Permutation Sorted.

(** ** Choosing a fragment *)
Definition best_of (best : option (nat * Z)) (fs : list (option Z)) : Prop :=
  match best with
  | None => Forall (fun f => f = None) fs
  | Some (r, x) => nth_error fs r = Some (Some x) /\
      forall j y, nth_error fs j = Some (Some y) -> x <= y /\ ((j < r)%nat -> x < y)
  end.

Lemma min_stage_spec : forall fs done best, best_of best done ->
  exists best', best_of best' (done ++ fs) /\ min_stage (length done) best fs = option_map fst best'.
Proof.
  induction fs as [|f fs IH]; intros done best H.
  - exists best. rewrite app_nil_r. auto.
  - cbn [min_stage]. specialize (IH (done ++ [f])). rewrite app_length in IH. cbn [length] in IH.
    replace (length done + 1)%nat with (S (length done)) in IH by lia. rewrite <- app_assoc in IH. cbn [app] in IH. apply IH.
    assert (NE : forall j y, nth_error (done ++ [f]) j = Some (Some y) ->
      (nth_error done j = Some (Some y) /\ (j < length done)%nat) \/ (j = length done /\ f = Some y)).
    { intros j y Hj. destruct (Nat.lt_ge_cases j (length done)) as [L|L].
      - rewrite nth_error_app1 in Hj by auto. auto.
      - rewrite nth_error_app2 in Hj by auto. destruct (j - length done)%nat eqn:E; cbn [nth_error] in Hj; [|destruct n; discriminate].
        right. split; [lia|congruence]. }
    destruct f as [x|]; destruct best as [[r y]|]; cbn [best_of] in *.
    + destruct H as [H1 H2]. assert (r < length done)%nat by (apply nth_error_Some; congruence).
      destruct (x <? y) eqn:E.
      * split; [rewrite nth_error_app2, Nat.sub_diag by lia; reflexivity|].
        intros j z Hj. destruct (NE _ _ Hj) as [[Hd Hl]|[-> Hz]].
        -- destruct (H2 _ _ Hd). split; lia.
        -- injection Hz as ->. split; [lia|lia].
      * split; [rewrite nth_error_app1 by auto; exact H1|].
        intros j z Hj. destruct (NE _ _ Hj) as [[Hd Hl]|[-> Hz]]; [auto|]. injection Hz as ->. split; lia.
    + split; [rewrite nth_error_app2, Nat.sub_diag by lia; reflexivity|].
      intros j z Hj. destruct (NE _ _ Hj) as [[Hd Hl]|[-> Hz]].
      * apply nth_error_In in Hd. rewrite Forall_forall in H. discriminate (H _ Hd).
      * injection Hz as ->. split; [lia|lia].
    + destruct H as [H1 H2]. assert (r < length done)%nat by (apply nth_error_Some; congruence).
      split; [rewrite nth_error_app1 by auto; exact H1|].
      intros j z Hj. destruct (NE _ _ Hj) as [[Hd Hl]|[-> Hz]]; [auto|discriminate Hz].
    + apply Forall_app. auto.
Qed.

Lemma fronts_nth : forall A (key : A -> Z) pick k n st i, (n <= length st)%nat -> (i < n)%nat ->
  nth_error (fronts key pick k n st) i = Some (nth_error (map key (nth i st [])) (pick k i (map key (nth i st [])))).
Proof.
  intros A key pick k n st i Hn Hi. unfold fronts. rewrite nth_error_map.
  assert (nth_error (combine (seq 0 n) (firstn n st)) i = Some (i, nth i st [])) as ->; [|reflexivity].
  assert (L : length (combine (seq 0 n) (firstn n st)) = n) by (rewrite combine_length, seq_length, firstn_length; lia).
  rewrite (nth_error_nth' _ (0%nat, []) ) by lia. f_equal.
  rewrite combine_nth by (rewrite seq_length, firstn_length; lia). rewrite seq_nth by auto. f_equal.
  assert (F : forall (l : list (list A)) m j, (j < m)%nat -> nth j (firstn m l) [] = nth j l []).
  { induction l as [|a l IHl]; intros [|m] [|j] Hj; try reflexivity; try lia. cbn [firstn nth]. apply IHl. lia. }
  now apply F.
Qed.

Lemma fronts_length : forall A (key : A -> Z) pick k n st, (n <= length st)%nat -> length (fronts key pick k n st) = n.
Proof. intros. unfold fronts. rewrite map_length, combine_length, seq_length, firstn_length. lia. Qed.

(** The fragment that is decompressed: one with the smallest key, of the first
    such stage. *)
Lemma chosen_spec : forall A (key : A -> Z) pick k n st, heap_front pick -> (n <= length st)%nat ->
  match min_stage 0 None (fronts key pick k n st) with
  | None => forall i, (i < n)%nat -> nth i st [] = []
  | Some i => (i < n)%nat /\ exists b, nth_error (nth i st []) (pick k i (map key (nth i st []))) = Some b /\
      forall i' b', (i' < n)%nat -> In b' (nth i' st []) -> key b <= key b' /\ ((i' < i)%nat -> key b < key b')
  end.
Proof.
  intros A key pick k n st Hp Hn.
  destruct (min_stage_spec (fronts key pick k n st) [] None) as (best & B & E); [constructor|].
  cbn [app length] in *. rewrite E.
  assert (HF : forall i, nth i st [] <> [] -> exists x, nth_error (map key (nth i st [])) (pick k i (map key (nth i st []))) = Some x /\ Forall (fun y => x <= y) (map key (nth i st []))).
  { intros i H. apply Hp. destruct (nth i st []); [congruence|discriminate]. }
  destruct best as [[i x]|]; cbn [option_map fst best_of] in *.
  - destruct B as [B1 B2].
    assert (Hi : (i < n)%nat) by (rewrite <- (fronts_length A key pick k n st Hn); apply nth_error_Some; congruence).
    split; auto. rewrite fronts_nth in B1 by auto. injection B1 as B1.
    rewrite nth_error_map in B1. destruct (nth_error (nth i st []) _) as [b|] eqn:Eb; [|discriminate B1].
    exists b. split; auto. cbn [option_map] in B1. injection B1 as B1.
    intros i' b' Hi' Hb'. destruct (HF i') as (y & Y1 & Y2); [intro N; rewrite N in Hb'; contradiction|].
    assert (Z1 : nth_error (fronts key pick k n st) i' = Some (Some y)) by (rewrite fronts_nth by auto; congruence).
    destruct (B2 _ _ Z1) as [K1 K2]. rewrite Forall_forall in Y2. specialize (Y2 (key b') (in_map key _ _ Hb')).
    rewrite B1. split; [lia|]. intro L. specialize (K2 L). lia.
  - intros i Hi. destruct (nth i st []) as [|a l] eqn:En; [reflexivity|exfalso].
    destruct (HF i) as (y & Y1 & _); [rewrite En; discriminate|].
    assert (Z1 : nth_error (fronts key pick k n st) i = Some (Some y)) by (rewrite fronts_nth by auto; congruence).
    apply nth_error_In in Z1. rewrite Forall_forall in B. discriminate (B _ Z1).
Qed.

(** ** The stages after a step *)
Definition three {A} (st : list (list A)) : Prop := length st = 3%nat.

Lemma three_inv : forall A (st : list (list A)), three st -> exists a b c, st = [a; b; c].
Proof. intros A [|a [|b [|c [|]]]] H; try discriminate H. eauto. Qed.

Lemma remove_nth_perm : forall A (l : list A) j b, nth_error l j = Some b -> Permutation l (b :: remove_nth j l).
Proof.
  induction l as [|x l IH]; intros [|j] b H; try discriminate H; cbn [remove_nth].
  - injection H as ->. apply Permutation_refl.
  - eapply Permutation_trans; [apply perm_skip, (IH j b H)|apply perm_swap].
Qed.

Lemma remove_nth_in : forall A (l : list A) j x, In x (remove_nth j l) -> In x l.
Proof. induction l as [|y l IH]; intros [|j] x H; cbn [remove_nth] in *; try contradiction; [now right|]. destruct H; [now left|right; eauto]. Qed.

(** One step: the stages after, and what happened to their contents. *)
Lemma step_perm : forall A (st : list (list A)) i j b r, three st -> (i < 3)%nat -> nth_error (nth i st []) j = Some b ->
  Permutation (b :: concat (set_nth i (remove_nth j (nth i st []) ++ r) st)) (r ++ concat st).
Proof.
  intros A st i j b r H3 Hi Hb. destruct (three_inv _ _ H3) as (s0 & s1 & s2 & ->).
  assert (P : forall s, nth_error s j = Some b -> Permutation (b :: remove_nth j s ++ r) (r ++ s)).
  { intros s Hs. eapply Permutation_trans; [|apply Permutation_app_comm].
    change (b :: remove_nth j s ++ r) with ((b :: remove_nth j s) ++ r). apply Permutation_app_tail.
    apply Permutation_sym, remove_nth_perm, Hs. }
  destruct i as [|[|[|]]]; try lia; cbn [nth set_nth concat] in *; rewrite ?app_nil_r.
  - specialize (P _ Hb). apply (Permutation_app_tail (s1 ++ s2)) in P. rewrite <- !app_assoc in *. cbn [app] in P. rewrite <- !app_assoc in P. exact P.
  - specialize (P _ Hb). apply (Permutation_app_tail s2) in P. apply (Permutation_app_head s0) in P.
    eapply Permutation_trans; [|eapply Permutation_trans; [exact P|]].
    + cbn [app]. rewrite <- !app_assoc. apply Permutation_middle.
    + rewrite <- !app_assoc. apply Permutation_app_swap_app.
  - specialize (P _ Hb). apply (Permutation_app_head (s0 ++ s1)) in P.
    eapply Permutation_trans; [|eapply Permutation_trans; [exact P|]].
    + rewrite app_assoc. apply Permutation_middle.
    + rewrite (app_assoc s0 s1 s2). apply Permutation_app_swap_app.
Qed.

Lemma set_nth_three : forall A i x (st : list (list A)), three st -> three (set_nth i x st).
Proof. intros A i x st H. destruct (three_inv _ _ H) as (a & b & c & ->). destruct i as [|[|[|]]]; reflexivity. Qed.

Lemma set_nth_nth : forall A i x (st : list (list A)) m, three st -> (i < 3)%nat ->
  nth m (set_nth i x st) [] = if (m =? i)%nat then x else nth m st [].
Proof.
  intros A i x st m H Hi. destruct (three_inv _ _ H) as (a & b & c & ->).
  destruct i as [|[|[|]]]; try lia; destruct m as [|[|[|]]]; reflexivity.
Qed.

(** The stages from [n] on are empty. *)
Definition flushed {A} (st : list (list A)) (n : nat) : Prop := three st /\ (n <= 3)%nat /\ forall i, (n <= i)%nat -> nth i st [] = [].

Lemma shift_spec : forall A (st : list (list A)) n, flushed ([] :: st) n -> (0 < n)%nat ->
  flushed (shift_stages n ([] :: st)) (n - 1) /\ concat (shift_stages n ([] :: st)) = concat ([] :: st) /\
  forall i, nth i (shift_stages n ([] :: st)) [] = nth (S i) ([] :: st) [].
Proof.
  intros A st n (H3 & Hn & Hf) H0. destruct (three_inv _ _ H3) as (a & b & c & E). injection E as <- ->.
  unfold flushed, three, shift_stages.
  destruct n as [|[|[|[|]]]]; try lia; cbn [Nat.sub firstn tl skipn app length concat].
  - pose proof (Hf 1%nat ltac:(lia)) as F1. pose proof (Hf 2%nat ltac:(lia)) as F2. cbn [nth] in F1, F2. subst b c. splits; auto; try lia.
    + intros i Hi; destruct i as [|[|[|[|]]]]; first [reflexivity | destruct n; reflexivity].
    + intros i; destruct i as [|[|[|[|]]]]; first [reflexivity | destruct n; reflexivity].
  - pose proof (Hf 2%nat ltac:(lia)) as F2. cbn [nth] in F2. subst c. splits; auto; try lia.
    + intros i Hi; destruct i as [|[|[|[|]]]]; first [lia | reflexivity | destruct n; reflexivity].
    + intros i; destruct i as [|[|[|[|]]]]; first [reflexivity | destruct n; reflexivity].
  - splits; auto; try lia.
    + intros i Hi; destruct i as [|[|[|[|]]]]; first [lia | reflexivity | destruct n; reflexivity].
    + intros i; destruct i as [|[|[|[|]]]]; first [reflexivity | destruct n; reflexivity].
Qed.

(** ** Depleting stages *)
Definition weight {A} (mu : A -> nat) (st : list (list A)) : nat := fold_right Nat.add 0%nat (map (fun b => S (mu b)) (concat st)).

Lemma sum_perm : forall l1 l2, Permutation l1 l2 -> fold_right Nat.add 0%nat l1 = fold_right Nat.add 0%nat l2.
Proof. induction 1; cbn [fold_right]; lia. Qed.

Lemma sum_app : forall l1 l2, fold_right Nat.add 0%nat (l1 ++ l2) = (fold_right Nat.add 0 l1 + fold_right Nat.add 0 l2)%nat.
Proof. induction l1; intro; cbn [app fold_right]; [lia|rewrite IHl1; lia]. Qed.

Lemma weight_step : forall A mu (st : list (list A)) i j b r, three st -> (i < 3)%nat -> nth_error (nth i st []) j = Some b ->
  (weight mu (set_nth i (remove_nth j (nth i st []) ++ r) st) + S (mu b) =
   weight mu st + fold_right Nat.add 0 (map (fun b => S (mu b)) r))%nat.
Proof.
  intros A mu st i j b r H3 Hi Hb. pose proof (step_perm A st i j b r H3 Hi Hb) as P.
  apply (Permutation_map (fun b => S (mu b))) in P. apply sum_perm in P. rewrite map_app, sum_app in P. cbn [map fold_right] in P.
  unfold weight. lia.
Qed.

Lemma step_flushed : forall A (st : list (list A)) n i x, flushed st n -> (i < n)%nat -> flushed (set_nth i x st) n.
Proof.
  intros A st n i x (H3 & Hn & Hf) Hi. split; [now apply set_nth_three|]. split; auto. intros m Hm.
  rewrite set_nth_nth by (auto; lia). assert ((m =? i)%nat = false) as -> by (apply Nat.eqb_neq; lia). auto.
Qed.

Section DepleteRule.
  Context {A E : Type} (key : A -> Z) (next : A -> option (A * bool * list E)) (pick : chooser) (must : bool) (mu : A -> nat)
    (Inv Q : list (list A) -> nat -> list A -> list E -> Prop).

  Lemma deplete_rule :
    heap_front pick ->
    (forall b, exists b' more evs, next b = Some (b', more, evs) /\ (more = true -> (mu b' < mu b)%nat)) ->
    (forall st n fr acc i j b b' more evs, flushed st n -> Inv st n fr acc -> (i < n)%nat -> nth_error (nth i st []) j = Some b ->
      (forall i' b'', (i' < n)%nat -> In b'' (nth i' st []) -> key b <= key b'' /\ ((i' < i)%nat -> key b < key b'')) ->
      next b = Some (b', more, evs) ->
      let st1 := set_nth i (remove_nth j (nth i st []) ++ (if more then [b'] else [])) st in
      let fr1 := if more then fr else b' :: fr in
      if is_empty (nth 0 st1 []) then
        if must then Inv (shift_stages n st1) (n - 1)%nat fr1 (acc ++ evs) else Q (shift_stages n st1) (n - 1)%nat fr1 (acc ++ evs)
      else Inv st1 n fr1 (acc ++ evs)) ->
    (forall st n fr acc, flushed st n -> Inv st n fr acc -> (forall i, nth i st [] = []) -> Q st 0%nat fr acc) ->
    forall fuel k st n fr acc, flushed st n -> Inv st n fr acc -> (weight mu st < fuel)%nat ->
    exists k' st' n' fr' evs, deplete key next pick fuel k must st n fr = Some (k', st', n', fr', evs) /\ Q st' n' fr' (acc ++ evs) /\
      flushed st' n' /\ (n' <= 2)%nat /\ (must = true -> n' = 0%nat /\ forall i, nth i st' [] = []).
  Proof.
    intros Hp Hnext Hstep Hend. induction fuel as [|fuel IH]; intros k st n fr acc HF HI Hw; [lia|].
    cbn [deplete]. pose proof HF as (H3 & Hn & Hf).
    pose proof (chosen_spec A key pick k n st Hp ltac:(rewrite H3; auto)) as C.
    destruct (min_stage 0 None (fronts key pick k n st)) as [i|].
    - destruct C as (Hi & b & Hb & Hmin). rewrite Hb.
      destruct (Hnext b) as (b' & more & evs & EN & Hmu). rewrite EN.
      specialize (Hstep st n fr acc i _ b b' more evs HF HI Hi Hb Hmin EN). cbv zeta in Hstep.
      set (st1 := set_nth i (remove_nth (pick k i (map key (nth i st []))) (nth i st []) ++ (if more then [b'] else [])) st) in *.
      set (fr1 := if more then fr else b' :: fr) in *.
      assert (F1 : flushed st1 n) by (apply step_flushed; auto).
      assert (W1 : (weight mu st1 < weight mu st)%nat).
      { pose proof (weight_step A mu st i _ b (if more then [b'] else []) H3 ltac:(lia) Hb) as W. fold st1 in W.
        destruct more; cbn [map fold_right] in W; [specialize (Hmu eq_refl); lia|lia]. }
      assert (C1 : exists s0 r, st1 = s0 :: r).
      { destruct (three_inv _ _ (proj1 F1)) as (x & y & z & ->). eauto. }
      destruct C1 as (s0 & r & E1). rewrite E1 in *. cbn [nth is_empty] in Hstep. destruct s0 as [|x s0].
      + cbn [is_empty] in Hstep. destruct (shift_spec _ _ _ F1 ltac:(lia)) as (S1 & S2 & S3). destruct must.
        * destruct (IH (S k) _ _ fr1 _ S1 Hstep) as (k' & st' & n' & fr' & evs' & D & HQ & D3).
          { unfold weight. rewrite S2. fold (weight mu ([] :: r)). lia. }
          rewrite D. exists k', st', n', fr', (evs ++ evs'). rewrite app_assoc. auto.
        * eexists _, _, _, _, _. split; [reflexivity|]. split; auto. split; auto. split; [lia|discriminate].
      + cbn [is_empty] in Hstep.
        destruct (IH (S k) _ _ fr1 _ F1 Hstep) as (k' & st' & n' & fr' & evs' & D & HQ & D3); [lia|].
        rewrite D. exists k', st', n', fr', (evs ++ evs'). rewrite app_assoc. auto.
    - assert (HA : forall i, nth i st [] = []).
      { intro i. destruct (Nat.lt_ge_cases i n); auto. }
      eexists _, _, _, _, _. split; [reflexivity|]. rewrite app_nil_r. split; [eapply Hend; eauto|].
      split; [split; [auto|split; [lia|auto]]|split; [lia|auto]].
  Qed.
End DepleteRule.

(** Two runs of [deplete] over related fragments. *)
Section DepleteSim.
  Context {A B E F : Type} (keyA : A -> Z) (keyB : B -> Z) (nextA : A -> option (A * bool * list E)) (nextB : B -> option (B * bool * list F))
    (R : A -> B -> Prop) (f : F -> E) (pick : chooser).

  Lemma forall2_nth_error : forall (l : list A) (m : list B) j a, Forall2 R l m -> nth_error l j = Some a ->
    exists b, nth_error m j = Some b /\ R a b.
  Proof. intros l m j a H. revert j. induction H; intros [|j] Hj; try discriminate Hj; cbn [nth_error] in *; [injection Hj as <-; eauto|eauto]. Qed.

  Lemma forall2_remove : forall j (l : list A) (m : list B), Forall2 R l m -> Forall2 R (remove_nth j l) (remove_nth j m).
  Proof. intros j l m H. revert j. induction H; intros [|j]; cbn [remove_nth]; auto. Qed.

  Lemma forall2_nth : forall (l : list (list A)) (m : list (list B)) i, Forall2 (Forall2 R) l m -> Forall2 R (nth i l []) (nth i m []).
  Proof. intros l m i H. revert i. induction H; intros [|i]; cbn [nth]; auto. Qed.

  Lemma forall2_set : forall (l : list (list A)) (m : list (list B)) i x y, Forall2 (Forall2 R) l m -> Forall2 R x y ->
    Forall2 (Forall2 R) (set_nth i x l) (set_nth i y m).
  Proof. intros l m i x y H HX. revert i. induction H; intros [|i]; cbn [set_nth]; auto. Qed.

  Lemma forall2_firstn : forall n (l : list (list A)) (m : list (list B)), Forall2 (Forall2 R) l m ->
    Forall2 (Forall2 R) (firstn n l) (firstn n m) /\ Forall2 (Forall2 R) (skipn n l) (skipn n m) /\ Forall2 (Forall2 R) (tl l) (tl m).
  Proof.
    intros n l m H. splits.
    - revert n. induction H; intros [|n]; cbn [firstn]; auto.
    - revert n. induction H; intros [|n]; cbn [skipn]; auto.
    - destruct H; cbn [tl]; auto.
  Qed.

  Lemma forall2_keys : (forall a b, R a b -> keyA a = keyB b) -> forall l m, Forall2 R l m -> map keyA l = map keyB m.
  Proof. intros HK l m H. induction H; cbn [map]; [reflexivity|]. f_equal; auto. Qed.

  Lemma deplete_sim :
    (forall a b, R a b -> keyA a = keyB b) ->
    (forall a b a' more evs, R a b -> nextA a = Some (a', more, evs) ->
      exists b' evs', nextB b = Some (b', more, evs') /\ R a' b' /\ map f evs' = evs) ->
    forall fuel fuel' k must stA stB n frA frB k' st' n' fr' evs,
    Forall2 (Forall2 R) stA stB -> Forall2 R frA frB -> (fuel <= fuel')%nat ->
    deplete keyA nextA pick fuel k must stA n frA = Some (k', st', n', fr', evs) ->
    exists stB' frB' evsB, deplete keyB nextB pick fuel' k must stB n frB = Some (k', stB', n', frB', evsB) /\
      Forall2 (Forall2 R) st' stB' /\ Forall2 R fr' frB' /\ map f evsB = evs.
  Proof.
    intros HK HN. induction fuel as [|fuel IH]; intros fuel' k must stA stB n frA frB k' st' n' fr' evs HS HFr Hle H; [discriminate H|].
    destruct fuel' as [|fuel']; [lia|]. cbn [deplete] in *.
    assert (EF : fronts keyA pick k n stA = fronts keyB pick k n stB).
    { unfold fronts. destruct (forall2_firstn n _ _ HS) as (H1 & _ & _). revert H1.
      generalize (seq 0 n). generalize (firstn n stA) as l1, (firstn n stB) as l2. intros l1 l2 ss0 H1. revert ss0.
      induction H1 as [|x y l l' Hxy HF IHF]; intros [|s ss]; cbn [combine map fst snd]; try reflexivity.
      rewrite (forall2_keys HK _ _ Hxy). f_equal. apply IHF. }
    rewrite <- EF. destruct (min_stage 0 None (fronts keyA pick k n stA)) as [i|].
    - pose proof (forall2_nth _ _ i HS) as HSi. rewrite <- (forall2_keys HK _ _ HSi).
      set (j := pick k i (map keyA (nth i stA []))) in *.
      destruct (nth_error (nth i stA []) j) as [a|] eqn:Ea; [|discriminate H].
      destruct (forall2_nth_error _ _ _ _ HSi Ea) as (b & Eb & Rab). rewrite Eb.
      destruct (nextA a) as [[[a' more] ev]|] eqn:En; [|discriminate H].
      destruct (HN _ _ _ _ _ Rab En) as (b' & ev' & EnB & Rab' & Ef). rewrite EnB.
      assert (HS1 : Forall2 (Forall2 R) (set_nth i (remove_nth j (nth i stA []) ++ (if more then [a'] else [])) stA)
                                       (set_nth i (remove_nth j (nth i stB []) ++ (if more then [b'] else [])) stB)).
      { apply forall2_set; auto. apply Forall2_app; [now apply forall2_remove|]. destruct more; auto. }
      assert (HF1 : Forall2 R (if more then frA else a' :: frA) (if more then frB else b' :: frB)) by (destruct more; auto).
      set (sA := set_nth i (remove_nth j (nth i stA []) ++ (if more then [a'] else [])) stA) in *.
      set (sB := set_nth i (remove_nth j (nth i stB []) ++ (if more then [b'] else [])) stB) in *.
      set (fA := if more then frA else a' :: frA) in *. set (fB := if more then frB else b' :: frB) in *.
      assert (HSh : Forall2 (Forall2 R) (shift_stages n sA) (shift_stages n sB)).
      { unfold shift_stages. destruct (forall2_firstn (n - 1) _ _ (proj2 (proj2 (forall2_firstn n _ _ HS1)))) as (X1 & _ & _).
        destruct (forall2_firstn n _ _ HS1) as (_ & X2 & _). apply Forall2_app; auto. }
      assert (REC : forall sA' sB' m, Forall2 (Forall2 R) sA' sB' ->
        match deplete keyA nextA pick fuel (S k) must sA' m fA with None => None | Some (k', st, n, fr, evs') => Some (k', st, n, fr, ev ++ evs') end
          = Some (k', st', n', fr', evs) ->
        exists stB' frB' evsB,
        match deplete keyB nextB pick fuel' (S k) must sB' m fB with None => None | Some (k', st, n, fr, evs') => Some (k', st, n, fr, ev' ++ evs') end
          = Some (k', stB', n', frB', evsB) /\ Forall2 (Forall2 R) st' stB' /\ Forall2 R fr' frB' /\ map f evsB = evs).
      { intros sA' sB' m HS' H'.
        destruct (deplete keyA nextA pick fuel (S k) must sA' m fA) as [[[[[k2 st2] n2] fr2] ev2]|] eqn:ED; [|discriminate H'].
        destruct (IH fuel' (S k) must sA' sB' m fA fB _ _ _ _ _ HS' HF1 ltac:(lia) ED) as (stB' & frB' & evsB & EB & B1 & B2 & B3).
        rewrite EB. injection H' as <- <- <- <- <-. eexists _, _, _. splits; try reflexivity; auto. rewrite map_app. congruence. }
      pose proof HS1 as HS2. clearbody sA sB fA fB.
      destruct HS2 as [|x y sA' sB' Hx HS2]; [eapply REC; [|exact H]; auto|].
      destruct Hx as [|xa xb x' y' Hxa Hx'].
      + destruct must; [eapply REC; [|exact H]; auto|]. injection H as <- <- <- <- <-. eexists _, _, _. splits; try reflexivity; auto.
      + eapply REC; [|exact H]; auto.
    - injection H as <- <- <- <- <-. eexists _, _, _. splits; try reflexivity; auto.
  Qed.
End DepleteSim.

(** ** The abstract run *)
(** A fragment that still has the messages [a_ms]; [a_stale] is its time stamp
    if it has none. *)
Record afrag := AFrag { a_tid : Z; a_ms : list fmsg; a_stale : Z }.

Definition ts (m : fmsg) : Z := w_ts (fm_w m).

Definition akey (f : afrag) : Z := match a_ms f with m :: _ => ts m | [] => a_stale f end.

Definition anext (cp : checkpoint) (f : afrag) : option (afrag * bool * list oline) :=
  match a_ms f with
  | [] => Some (f, false, [])
  | m :: r => Some (AFrag (a_tid f) r (ts m), negb (is_empty r), [show cp (a_tid f) m])
  end.

Definition amu (f : afrag) : nat := length (a_ms f).

(** A fragment of the decoder that stands for an abstract one. *)
Definition stands (conv : rconv -> list Z) (known : list site) (f : afrag) (b : bfrag) : Prop :=
  at_msgs b (a_tid f) (map fm_w (a_ms f)) /\ Forall (fmsg_ok conv known) (a_ms f) /\ bf_ts b = akey f.

Lemma fmsg_ok_mono : forall conv known ss m, fmsg_ok conv known m -> fmsg_ok conv (known ++ ss) m.
Proof.
  intros conv known ss m (H1 & H2 & H3 & H4). unfold fmsg_ok. splits; auto; try lia.
  rewrite nth_error_app1; auto. apply nth_error_Some. congruence.
Qed.

Lemma stands_mono : forall conv known ss f b, stands conv known f b -> stands conv (known ++ ss) f b.
Proof. intros conv known ss f b (H1 & H2 & H3). split; auto. split; auto. eapply Forall_impl; [|exact H2]. intros. now apply fmsg_ok_mono. Qed.

Lemma at_msgs_length : forall b tid ws, at_msgs b tid ws -> Forall wm_ok ws -> (length ws <= S (Z.to_nat (bf_end b - bf_pos b)))%nat.
Proof.
  intros b tid [|w r] A Hw; [cbn [length]; lia|]. destruct A as (_ & _ & _ & _ & _ & A & _). cbn [length].
  inversion Hw as [|? ? _ Hr]; subst. rewrite zlen_app in A.
  assert (L : forall ws last, Forall wm_ok ws -> Z.of_nat (length ws) <= zlen (wmsgs_bytes last ws)).
  { induction ws as [|x ws IH]; intros last Hx; cbn [length wmsgs_bytes]; [rewrite zlen_nil; lia|].
    inversion Hx as [|? ? [X1 X2] Hws]; subst. rewrite zlen_app. specialize (IH (w_ts x) Hws). unfold wmsg_bytes. rewrite zlen_app.
    pose proof (hbytes_zlen (w_id x) (w_ts x) last X1). pose proof (zlen_nonneg _ (w_body x)). lia. }
  specialize (L r (w_ts w) Hr). pose proof (zlen_nonneg _ (w_body w)). lia.
Qed.

Lemma decompressNext_stale : forall conv dict b b' o, decompressNext conv dict b = Some (b', o) -> bf_more b' = false -> bf_ts b' = bf_ts b.
Proof.
  intros conv dict b b' o H HM. unfold decompressNext in H.
  destruct ((bf_end b <? bf_pos b) || negb (bf_more b)); [injection H as <- _; reflexivity|].
  destruct (metadata_at dict _) as [mc|]; [|discriminate H].
  destruct (print_message conv mc _ _ _) as [[[text pushed] pos]|]; [|discriminate H].
  destruct (bf_end b <=? pos); [injection H as <- _; reflexivity|].
  destruct (decompressLogHeader _ _ _) as [[[id t] pos']|]; injection H as <- _; [discriminate HM|reflexivity].
Qed.

Lemma readBufferExtent_stale : forall f b f' b' ok w, readBufferExtent f b = Some (f', b', ok, w) -> bf_more b' = false -> bf_ts b' = bf_ts b.
Proof.
  intros f b f' b' ok w H HM. unfold readBufferExtent in H. destruct (fread 5 f) as [h f1].
  set (m1 := store (bf_mem b) 0 h) in H. set (len := le_val (load m1 1 4)) in H. cbv zeta in H.
  destruct (_ || _ || _); [injection H as _ <- _ _; reflexivity|].
  destruct (len <? zlen h); [discriminate H|].
  destruct (fread (len - zlen h) f1) as [r f2]. set (m2 := store m1 5 r) in H.
  destruct (negb (_ =? _)); [injection H as _ <- _ _; reflexivity|].
  destruct (if negb (bf_get (m2 0) 3 1 =? 0) then _ else _) as [tid pos].
  destruct (pos =? _); [injection H as _ <- _ _; reflexivity|].
  destruct (decompressLogHeader m2 pos 0) as [[[id t] pos']|]; injection H as _ <- _ _; [discriminate HM|reflexivity].
Qed.

Lemma next_sim : forall conv known cp f b f' more evs, stands conv known f b -> anext cp f = Some (f', more, evs) ->
  exists b' evs', next_message conv cp (dict_of known) b = Some (b', more, evs') /\ stands conv known f' b' /\ map line_of evs' = evs.
Proof.
  intros conv known cp [tid ms stale] b f' more evs (A & Hok & K) H. unfold anext, akey in *. cbn [a_ms a_tid a_stale] in *.
  unfold next_message. destruct ms as [|m ms].
  - injection H as <- <- <-. destruct A as [A1 A2]. cbn [map] in A2. unfold decompressNext. rewrite A2.
    replace ((bf_end b <? bf_pos b) || negb false) with true by (rewrite orb_true_r; reflexivity).
    eexists _, _. split; [reflexivity|]. split; [|reflexivity]. unfold stands, at_msgs, akey. cbn [a_ms a_tid map bf_tid bf_more bf_ts a_stale]. auto.
  - injection H as <- <- <-. destruct (decompressNext_spec conv known b tid m ms A Hok) as (b' & dm & E & A' & LN & _).
    rewrite E. exists b', [EvMsg cp dm]. split; [|split; [|cbn [map]; rewrite LN; reflexivity]].
    + repeat f_equal. destruct A' as [_ A']. destruct ms as [|m' ms]; cbn [map] in A'; [rewrite A'; reflexivity|].
      destruct A' as [-> _]. reflexivity.
    + inversion Hok as [|? ? _ Hms]; subst. unfold stands, akey. cbn [a_ms a_tid a_stale]. splits; auto.
      destruct ms as [|m' ms]; cbn [map] in A'.
      * rewrite (decompressNext_stale _ _ _ _ _ E) by apply A'. exact K.
      * destruct A' as (_ & _ & _ & -> & _). reflexivity.
Qed.

(** What a run of the loader yields. *)
Record loaded := Loaded {
  l_items : list item; l_free : list Z; l_stages : list (list afrag); l_n : nat;
  l_must : bool; l_done : bool; l_cp : checkpoint; l_lines : list oline
}.

Definition flush_n {A} (st : list (list A)) (n : nat) : nat := if is_empty (nth n st []) then n else S n.

Definition all_empty {A} (st : list (list A)) : bool := is_empty (concat st).

(** [None]: messages of the previous execution are left at a checkpoint. *)
Fixpoint a_load (items : list item) (free : list Z) (st : list (list afrag)) (n : nat) (cp : checkpoint) : option loaded :=
  match items with
  | [] => Some (Loaded [] free st (flush_n st n) true true cp [])
  | IPad _ :: r => a_load r free st n cp
  | IDict _ _ :: r => a_load r free st n cp
  | IExtent tid np ms :: r =>
    let st' := push_stage n (AFrag tid ms (hd 0 free)) st in
    let n' := if np then S n else n in
    if (n' =? 3)%nat then Some (Loaded r (tl free) st' n' false false cp [])
    else a_load r (tl free) st' n' cp
  | ICheckpoint _ cp' :: r =>
    if negb (is_empty (nth 0 st [])) then Some (Loaded items free st (flush_n st n) true false cp [])
    else if all_empty st then
      match a_load r free st n cp' with
      | None => None
      | Some l => Some (Loaded (l_items l) (l_free l) (l_stages l) (l_n l) (l_must l) (l_done l) (l_cp l) (LNewExecution :: l_lines l))
      end
    else None
  end.

Fixpoint a_run (pick : chooser) (fuel k : nat) (items : list item) (free : list Z) (st : list (list afrag)) (n : nat) (cp : checkpoint)
    : option (list oline) :=
  match fuel with
  | O => None
  | S fuel' =>
    match a_load items free st n cp with
    | None => None
    | Some l =>
      match deplete akey (anext (l_cp l)) pick (S (weight amu (l_stages l))) k (l_must l) (l_stages l) (l_n l) [] with
      | None => None
      | Some (k', st2, n2, freed, ls) =>
        if l_done l then Some (l_lines l ++ ls)
        else
          match a_run pick fuel' k' (l_items l) (map akey freed ++ l_free l) st2 n2 (l_cp l) with
          | None => None
          | Some ls' => Some (l_lines l ++ ls ++ ls')
          end
      end
    end
  end.

(** ** The loader *)
Lemma metadata_app : forall dict x i mc, metadata_at dict i = Some mc -> metadata_at (dict ++ x) i = Some mc.
Proof.
  induction dict as [|d dict IH]; intros x i mc H; [discriminate H|]. cbn [app metadata_at] in *.
  destruct i as [|i]; [destruct (de_mc d); auto|auto].
Qed.

Lemma next_message_app : forall conv cp dict x b r, next_message conv cp dict b = Some r -> next_message conv cp (dict ++ x) b = Some r.
Proof.
  intros conv cp dict x b r H. unfold next_message, decompressNext in *.
  destruct ((bf_end b <? bf_pos b) || negb (bf_more b)); [exact H|].
  destruct (metadata_at dict _) as [mc|] eqn:E; [|discriminate H]. now rewrite (metadata_app _ x _ _ E).
Qed.

Lemma dict_fragment_loop_app : forall fuel read total f dict f' dict' ok,
  dict_fragment_loop fuel read total f dict = Some (f', dict', ok) -> exists x, dict' = dict ++ x.
Proof.
  induction fuel as [|fuel IH]; intros read total f dict f' dict' ok H; [discriminate H|]. cbn [dict_fragment_loop] in H.
  destruct (negb _); [injection H as _ <- _; exists []; now rewrite app_nil_r|].
  destruct (fread 9 f) as [cli f1]. destruct (zlen cli <? 9); [injection H as _ <- _; exists []; now rewrite app_nil_r|].
  destruct (fread _ f1) as [fb f2]. destruct (fread _ f2) as [sb f3].
  destruct (negb _); [injection H as _ <- _; exists []; now rewrite app_nil_r|].
  destruct (cstring fb), (cstring sb); try discriminate H.
  destruct (IH _ _ _ _ _ _ _ H) as (x & ->). eexists. now rewrite <- app_assoc.
Qed.

Lemma readDictionaryFragment_app : forall f dict f' dict' ok,
  readDictionaryFragment f dict = Some (f', dict', ok) -> exists x, dict' = dict ++ x.
Proof.
  intros f dict f' dict' ok H. unfold readDictionaryFragment in H. destruct (fread 8 f) as [df f1].
  destruct (zlen df <? 8); [injection H as _ <- _; exists []; now rewrite app_nil_r|].
  destruct (negb _); [discriminate H|]. eapply dict_fragment_loop_app; eauto.
Qed.

Lemma a_load_pads : forall items free st n cp, a_load (drop_pads items) free st n cp = a_load items free st n cp.
Proof. induction items as [|[?|? ?|? ? ?|? ?] items IH]; intros; cbn [drop_pads a_load]; auto. Qed.

Lemma forall2_mono : forall conv known ss st cst, Forall2 (Forall2 (stands conv known)) st cst -> Forall2 (Forall2 (stands conv (known ++ ss))) st cst.
Proof.
  intros conv known ss st cst H. induction H as [|x y l l' Hxy HF IHF]; constructor; auto.
  clear - Hxy. induction Hxy; constructor; auto. now apply stands_mono.
Qed.

Lemma forall2_empty : forall A B (R : A -> B -> Prop) l m, Forall2 R l m -> is_empty l = is_empty m.
Proof. intros A B R l m H. destruct H; reflexivity. Qed.

Lemma all_empty_forall2 : forall conv known known' st cst, Forall2 (Forall2 (stands conv known)) st cst -> all_empty st = true ->
  Forall2 (Forall2 (stands conv known')) st cst.
Proof.
  intros conv known known' st cst H. induction H as [|x y l l' Hxy HF IHF]; intro E; constructor.
  - unfold all_empty in E. cbn [concat] in E. destruct Hxy; [constructor|discriminate E].
  - apply IHF. unfold all_empty in *. cbn [concat] in E. destruct x; [exact E|discriminate E].
Qed.

Definition torn_cp (conv : rconv -> list Z) (d : decoder) : Prop :=
  exists known junk cp k, item_ok conv known (ICheckpoint junk cp) /\ (0 < k < length (item_bytes (ICheckpoint junk cp)))%nat /\
    d_file d = File (firstn k (item_bytes (ICheckpoint junk cp))) false /\ d_good d = true.

(** What the loader does at the end of the file. *)
Lemma load_end : forall conv known cp op pr bfm fr st cst n fuel tail,
  torn conv known tail -> Forall2 (Forall2 (stands conv known)) st cst -> (n < 3)%nat ->
  (1 < fuel)%nat ->
  exists d1 evs x,
   load_stages fuel (Decoder op (File tail false) pr bfm true cp fr (dict_of known)) cst n = Some (d1, cst, flush_n st n, true, evs) /\
   evs = [] /\ d_cp d1 = cp /\ d_dict d1 = dict_of known ++ x /\ d_open d1 = op /\ d_bf d1 = bfm /\ d_printed d1 = pr /\
   (tail = [] -> d_good d1 = true) /\ (f_eof (d_file d1) = true \/ tail <> [] /\ torn_cp conv d1).
Proof.
  intros conv known cp op pr bfm fr st cst n fuel tail Ht HS Hn Hf.
  assert (FL : flush_n st n = if false || (true && negb (is_empty (nth n cst []))) then S n else n).
  { unfold flush_n. rewrite (forall2_empty _ _ _ _ _ (forall2_nth _ _ _ n HS)). destruct (is_empty (nth n cst [])); reflexivity. }
  destruct fuel as [|fuel]; [lia|]. cbn [load_stages d_file f_eof d_good negb orb].
  destruct Ht as [->|(it & k & Hit & Hp & Hk & ->)].
  - unfold load_entry. cbn [d_file peekEntryType f_rest]. change (ET_INVALID =? ET_BUFFER_EXTENT) with false. change (ET_INVALID =? ET_CHECKPOINT) with false.
    change (ET_INVALID =? ET_LOG_MSGS_OR_DIC) with false. cbn [skip_padding f_eof d_file orb d_good negb length f_rest].
    rewrite FL. eexists _, _, []. rewrite app_nil_r. splits; try reflexivity. now left.
  - pose proof (item_nonempty _ _ _ Hit Hp) as Hne. unfold load_entry. cbn [d_file].
    rewrite (peek_torn conv known) by (auto; lia).
    assert (NT : firstn k (item_bytes it) <> []).
    { destruct (item_bytes it); [cbn in *; lia|]. destruct (firstn_cons _ k z l (proj1 Hk)) as (? & ->). discriminate. }
    destruct it as [?|total ss|tid np ms|junk cpx]; [discriminate Hp| | |]; cbn [type_of].
    + change (ET_LOG_MSGS_OR_DIC =? ET_BUFFER_EXTENT) with false. change (ET_LOG_MSGS_OR_DIC =? ET_CHECKPOINT) with false.
      change (ET_LOG_MSGS_OR_DIC =? ET_LOG_MSGS_OR_DIC) with true. cbv iota. cbn [d_dict].
      destruct (torn_dict conv known total ss k (dict_of known) Hit (proj2 Hk)) as (dict' & E).
      destruct (readDictionaryFragment_app _ _ _ _ _ E) as (x & ->). rewrite E.
      cbn [d_file f_eof orb d_good negb]. rewrite FL. eexists _, _, x. splits; try reflexivity; [intros; contradiction|now left].
    + change (ET_BUFFER_EXTENT =? ET_BUFFER_EXTENT) with true. cbv iota. cbn [d_free].
      destruct (allocateBufferFragment fr) as [b free].
      destruct (torn_extent conv known tid np ms k b Hit (proj2 Hk)) as (b' & -> & _).
      cbn [d_file f_eof orb d_good negb]. rewrite FL. eexists _, _, []. rewrite app_nil_r. splits; try reflexivity; [intros; contradiction|now left].
    + change (ET_CHECKPOINT =? ET_BUFFER_EXTENT) with false. change (ET_CHECKPOINT =? ET_CHECKPOINT) with true. cbv iota.
      destruct (is_empty (nth 0 cst [])); cbn [negb].
      * cbn [d_cp d_dict]. rewrite (torn_checkpoint conv known) by (auto; lia).
        cbn [d_file f_eof orb d_good negb]. rewrite FL. eexists _, _, []. rewrite app_nil_r. splits; try reflexivity; [intros; contradiction|now left].
      * cbn [d_file f_eof orb d_good negb]. rewrite FL. eexists _, _, []. rewrite app_nil_r. splits; try reflexivity.
        right. split; auto. exists known, junk, cpx, k. splits; auto; lia.
Qed.

Lemma push_sim : forall conv known st cst n f b, Forall2 (Forall2 (stands conv known)) st cst -> stands conv known f b ->
  Forall2 (Forall2 (stands conv known)) (push_stage n f st) (push_stage n b cst).
Proof. intros. unfold push_stage. apply forall2_set; auto. apply Forall2_app; [now apply forall2_nth|auto]. Qed.

Lemma load_sim : forall conv sz items, (length items <= sz)%nat -> forall known cp op pr bfm fr st cst n fuel tail l,
  items_ok conv known items -> torn conv (knows_all known items) tail ->
  Forall2 (Forall2 (stands conv known)) st cst -> (n < 3)%nat ->
  a_load items (map bf_ts fr) st n cp = Some l ->
  (length (file_bytes items ++ tail) + 1 < fuel)%nat ->
  exists d1 cst1 evs known' x,
   load_stages fuel (Decoder op (File (file_bytes items ++ tail) false) pr bfm true cp fr (dict_of known)) cst n
   = Some (d1, cst1, l_n l, l_must l, evs) /\
   map line_of evs = l_lines l /\ Forall2 (Forall2 (stands conv known')) (l_stages l) cst1 /\
   d_cp d1 = l_cp l /\ d_dict d1 = dict_of known' ++ x /\ d_open d1 = op /\ d_bf d1 = bfm /\ d_printed d1 = pr /\
   (tail = [] -> d_good d1 = true) /\
   (l_done l = false -> d_file d1 = File (file_bytes (l_items l) ++ tail) false /\ d_good d1 = true /\ x = [] /\ map bf_ts (d_free d1) = l_free l /\
     items_ok conv known' (l_items l) /\ torn conv (knows_all known' (l_items l)) tail) /\
   (l_done l = true -> l_must l = true /\ (f_eof (d_file d1) = true \/ tail <> [] /\ torn_cp conv d1)).
Proof.
  intros conv. induction sz as [|sz IH]; intros items Hsz known cp op pr bfm fr st cst n fuel tail l Hi Ht HS Hn HL Hf.
  - destruct items; [|cbn [length] in Hsz; lia]. cbn [file_bytes map concat app file_lines knows_all fold_left a_load] in *.
    injection HL as <-. cbn [l_items l_free l_stages l_n l_must l_done l_cp l_lines].
    destruct (load_end conv known cp op pr bfm fr st cst n fuel tail Ht HS Hn ltac:(lia)) as (d1 & evs & x & E & -> & E1 & E2 & E3 & E4 & E5 & E6 & E7).
    exists d1, cst, [], known, x. rewrite E. splits; auto. discriminate.
  - destruct items as [|it items]; [exact (IH [] ltac:(cbn [length]; lia) known cp op pr bfm fr st cst n fuel tail l Hi Ht HS Hn HL Hf)|].
    cbn [length] in Hsz. destruct Hi as [Hit Hi]. unfold knows_all in Ht. cbn [fold_left] in Ht. fold (knows_all (knows known it) items) in Ht.
    destruct (is_pad it) eqn:Hp.
    + (* padding *)
      destruct it as [bs|? ?|? ? ?|? ?]; try discriminate Hp. cbn [knows a_load] in *.
      destruct bs as [|p bs]; [exact (IH items ltac:(lia) known cp op pr bfm fr st cst n fuel tail l Hi Ht HS Hn HL Hf)|].
      destruct fuel as [|fuel]; [lia|].
      rewrite file_cons in *. cbn [item_bytes] in *. inversion Hit as [|? ? [P1 P2] Hbs]; subst.
      cbn [load_stages d_file f_eof d_good negb orb]. unfold load_entry. cbn [d_file d_open d_printed d_bf d_good d_cp d_free d_dict].
      unfold peekEntryType at 1. cbn [f_rest app]. rewrite (pad_type p P1 P2).
      change (ET_INVALID =? ET_BUFFER_EXTENT) with false. change (ET_INVALID =? ET_CHECKPOINT) with false.
      change (ET_INVALID =? ET_LOG_MSGS_OR_DIC) with false. cbv iota. cbn [f_rest].
      assert (ES : skip_padding (S (length (p :: bs ++ file_bytes items ++ tail))) (File (p :: bs ++ file_bytes items ++ tail) false) =
        File (file_bytes (drop_pads items) ++ tail) (match file_bytes (drop_pads items) ++ tail with [] => true | _ => false end)).
      { pose proof (skip_items conv (IPad (p :: bs) :: items) known (S (length (p :: bs ++ file_bytes items ++ tail))) tail) as K.
        rewrite file_cons in K. cbn [item_bytes app drop_pads] in K. apply K.
        - split; [now constructor|exact Hi].
        - eapply torn_starts; eauto.
        - lia. }
      rewrite ES.
      pose proof (drop_pads_length items) as [DL1 DL2]. rewrite <- a_load_pads in HL.
      assert (NN : (n =? stagesToBuffer)%nat = false) by (apply Nat.eqb_neq; unfold stagesToBuffer; lia).
      destruct (drop_pads_cases _ _ _ Hi) as [D0|(it & r & D1 & D2 & D3)].
      * rewrite D0 in *. cbn [file_bytes map concat app a_load] in *.
        rewrite <- drop_pads_knows, D0 in Ht. cbn [knows_all fold_left] in Ht.
        injection HL as <-. cbn [l_items l_free l_stages l_n l_must l_done l_cp l_lines].
        destruct tail as [|t tail]; cbn [d_file f_eof orb d_good negb andb].
        -- exists (Decoder op (File [] true) pr bfm true cp fr (dict_of known)), cst, [], known, [].
           rewrite app_nil_r. unfold flush_n. rewrite (forall2_empty _ _ _ _ _ (forall2_nth _ _ _ n HS)).
           splits; try reflexivity; auto; try discriminate.
           destruct (is_empty (nth n cst [])); reflexivity.
        -- rewrite NN.
           destruct (load_end conv known cp op pr bfm fr st cst n fuel (t :: tail) Ht HS Hn) as (d1 & evs & x & E & -> & E1 & E2 & E3 & E4 & E5 & E6 & E7).
           { cbn [app length] in Hf. rewrite !app_length in Hf. cbn [length] in Hf. lia. }
           exists d1, cst, [], known, x. rewrite E. splits; auto. discriminate.
      * assert (match file_bytes (drop_pads items) ++ tail with [] => true | _ => false end = false) as ->.
        { rewrite D1, file_cons. destruct (item_bytes it); [cbn in D3; lia|reflexivity]. }
        cbn [d_file f_eof orb d_good negb andb]. rewrite NN.
        destruct (IH (drop_pads items) ltac:(lia) known cp op pr bfm fr st cst n fuel tail l) as (d1 & cst1 & evs & known' & x & E & E2);
          [now apply drop_pads_ok|now rewrite drop_pads_knows|auto|auto|auto| |].
        { cbn [app length] in Hf. rewrite !app_length in *. lia. }
        rewrite E. exists d1, cst1, evs, known', x. exact (conj eq_refl E2).
    + pose proof (item_nonempty _ _ _ Hit Hp) as Hne.
      destruct fuel as [|fuel]; [lia|]. rewrite file_cons in *. rewrite app_length in Hf.
      cbn [load_stages d_file f_eof d_good negb orb]. unfold load_entry. cbn [d_file d_open d_printed d_bf d_good d_cp d_free d_dict].
      rewrite (peek_item conv known) by auto.
      assert (NN : (n =? stagesToBuffer)%nat = false) by (apply Nat.eqb_neq; unfold stagesToBuffer; lia).
      destruct it as [?|total ss|tid np ms|junk cpx]; [discriminate Hp| | |]; cbn [type_of knows a_load] in *.
      * change (ET_LOG_MSGS_OR_DIC =? ET_BUFFER_EXTENT) with false. change (ET_LOG_MSGS_OR_DIC =? ET_CHECKPOINT) with false.
        change (ET_LOG_MSGS_OR_DIC =? ET_LOG_MSGS_OR_DIC) with true. cbv iota.
        rewrite (readDictionaryFragment_spec conv known) by auto.
        assert (dict_of known ++ map entry_of ss = dict_of (known ++ ss)) as -> by (unfold dict_of; now rewrite map_app).
        cbn [d_file f_eof orb d_good negb andb]. rewrite NN.
        destruct (IH items ltac:(lia) (known ++ ss) cp op pr bfm fr st cst n fuel tail l Hi Ht (forall2_mono _ _ _ _ _ HS) Hn HL ltac:(lia))
          as (d1 & cst1 & evs & known' & x & E & E2).
        rewrite E. exists d1, cst1, evs, known', x. exact (conj eq_refl E2).
      * change (ET_BUFFER_EXTENT =? ET_BUFFER_EXTENT) with true. cbv iota.
        destruct Hit as (T1 & T2 & T3). cbn [item_bytes] in *.
        destruct (allocateBufferFragment fr) as [b free] eqn:EA.
        assert (EB : bf_ts b = hd 0 (map bf_ts fr) /\ map bf_ts free = tl (map bf_ts fr)).
        { destruct fr; cbn [allocateBufferFragment] in EA; injection EA as <- <-; split; reflexivity. }
        destruct EB as [EB1 EB2].
        destruct (readBufferExtent_spec tid np (map fm_w ms) (file_bytes items ++ tail) b T1 (fmsgs_wm _ _ _ T3) T2) as (b' & ER & A).
        rewrite ER. cbn [d_file f_eof orb d_good negb andb].
        assert (SB : stands conv known (AFrag tid ms (hd 0 (map bf_ts fr))) b').
        { unfold stands, akey. cbn [a_tid a_ms a_stale]. splits; auto. destruct ms as [|m ms].
          - rewrite (readBufferExtent_stale _ _ _ _ _ _ ER); auto. apply A.
          - destruct A as (_ & _ & _ & A3 & _). exact A3. }
        assert (HS' := push_sim conv known st cst n _ _ HS SB). rewrite orb_false_r. unfold stagesToBuffer.
        set (n' := if np then S n else n) in *. destruct (n' =? 3)%nat eqn:E3.
        -- injection HL as <-. cbn [l_items l_free l_stages l_n l_must l_done l_cp l_lines].
           eexists _, _, [], known, []. rewrite app_nil_r. splits; try reflexivity; auto; try discriminate.
           intros _. cbn [d_free d_file d_good]. splits; auto.
        -- assert (Hn' : (n' < 3)%nat) by (apply Nat.eqb_neq in E3; subst n'; destruct np; lia).
           rewrite <- EB2 in HL.
           destruct (IH items ltac:(lia) known cp op pr bfm free _ _ n' fuel tail l Hi Ht HS' Hn' HL ltac:(lia)) as (d1 & cst1 & evs & known' & x & E & E2).
           rewrite E. exists d1, cst1, evs, known', x. exact (conj eq_refl E2).
      * change (ET_CHECKPOINT =? ET_BUFFER_EXTENT) with false. change (ET_CHECKPOINT =? ET_CHECKPOINT) with true. cbv iota.
        rewrite <- (forall2_empty _ _ _ _ _ (forall2_nth _ _ _ 0 HS)).
        destruct (is_empty (nth 0 st [])) eqn:E0; cbn [negb] in *.
        -- destruct (all_empty st) eqn:EAll; [|discriminate HL].
           destruct (a_load items (map bf_ts fr) st n cpx) as [l'|] eqn:EL; [|discriminate HL]. injection HL as <-.
           rewrite (readDictionary_spec conv known) by auto. cbn [d_file f_eof orb d_good negb andb]. rewrite NN.
           destruct (IH items ltac:(lia) [] cpx op pr bfm fr st cst n fuel tail l' Hi Ht (all_empty_forall2 _ _ _ _ _ HS EAll) Hn EL ltac:(lia))
             as (d1 & cst1 & evs & known' & x & E & F1 & F2).
           change (dict_of []) with (@nil dentry) in E. rewrite E. cbn [l_items l_free l_stages l_n l_must l_done l_cp l_lines].
           exists d1, cst1, (EvNewExecution :: evs), known', x. splits; try apply F2; auto.
           cbn [map line_of]. now rewrite F1.
        -- injection HL as <-. cbn [l_items l_free l_stages l_n l_must l_done l_cp l_lines d_file f_eof orb d_good negb andb].
           unfold flush_n. rewrite (forall2_empty _ _ _ _ _ (forall2_nth _ _ _ n HS)).
           destruct (is_empty (nth n cst [])); cbn [negb];
             (eexists _, _, [], known, []; rewrite app_nil_r; splits; try reflexivity; auto; try discriminate;
              intros _; cbn [d_free d_file d_good]; rewrite file_cons; splits; auto; cbn [items_ok]; auto).
Qed.

(** ** The run *)
Lemma deplete_fuel_ok : forall conv known st cst, Forall2 (Forall2 (stands conv known)) st cst -> (S (weight amu st) <= deplete_fuel cst)%nat.
Proof.
  intros conv known st cst H. unfold weight, deplete_fuel.
  assert (C : Forall2 (stands conv known) (concat st) (concat cst)).
  { induction H; cbn [concat]; [constructor|]. now apply Forall2_app. }
  enough (fold_right Nat.add 0 (map (fun b => S (amu b)) (concat st)) <=
    fold_right Nat.add 0 (map (fun b => S (S (Z.to_nat (bf_end b - bf_pos b)))) (concat cst)))%nat by lia.
  induction C as [|f b l l' Hfb HF IHF]; cbn [map fold_right]; [lia|].
  destruct Hfb as (A & Hok & _). pose proof (at_msgs_length _ _ _ A (fmsgs_wm _ _ _ Hok)) as L. rewrite map_length in L. change (length (a_ms f)) with (amu f) in L. lia.
Qed.

Lemma no_msgs : forall evs ls, map line_of evs = ls -> msgs_in evs = zlen (messages ls).
Proof.
  induction evs as [|e evs IH]; intros ls <-; [reflexivity|]. cbn [map]. change (line_of e :: map line_of evs) with ([line_of e] ++ map line_of evs).
  rewrite messages_app, zlen_app. specialize (IH _ eq_refl). unfold msgs_in in *. cbn [filter]. destruct e; cbn [line_of].
  - rewrite zlen_cons. change (zlen (messages [LMsg _])) with 1. lia.
  - change (zlen (messages [LNewExecution])) with 0. lia.
Qed.

Definition empties {A} (st : list (list A)) : Prop := three st /\ forall i, nth i st [] = [].

(** No messages are printed by the loader. *)
Lemma a_load_lines : forall items free st n cp l, a_load items free st n cp = Some l -> messages (l_lines l) = [].
Proof.
  induction items as [|[?|? ?|tid np ms|junk cpx] items IH]; intros free st n cp l H; cbn [a_load] in H; eauto.
  - injection H as <-. reflexivity.
  - destruct ((if np then S n else n) =? 3)%nat; [injection H as <-; reflexivity|eauto].
  - destruct (negb _); [injection H as <-; reflexivity|]. destruct (all_empty st); [|discriminate H].
    destruct (a_load items free st n cpx) as [l'|] eqn:E; [|discriminate H]. injection H as <-. cbn [l_lines]. apply (IH _ _ _ _ _ E).
Qed.

Lemma a_load_three : forall items free st n cp l, a_load items free st n cp = Some l -> three st -> (n < 3)%nat ->
  (forall i, (n < i)%nat -> nth i st [] = []) ->
  flushed (l_stages l) (l_n l).
Proof.
  assert (FL : forall st n, @three afrag st -> (n < 3)%nat -> (forall i, (n < i)%nat -> nth i st [] = []) -> flushed st (flush_n st n)).
  { intros st n H3 Hn Hf. unfold flush_n. destruct (nth n st []) eqn:E; cbn [is_empty].
    - split; [auto|split; [lia|]]. intros i Hi. destruct (Nat.eq_dec i n); [congruence|]. apply Hf. lia.
    - split; [auto|split; [lia|]]. intros i Hi. apply Hf. lia. }
  induction items as [|[?|? ?|tid np ms|junk cpx] items IH]; intros free st n cp l H H3 Hn Hf; cbn [a_load] in H; eauto.
  - injection H as <-. cbn [l_stages l_n]. auto.
  - assert (P3 : three (push_stage n (AFrag tid ms (hd 0 free)) st)) by (unfold push_stage; now apply set_nth_three).
    assert (PF : forall i, (n < i)%nat -> nth i (push_stage n (AFrag tid ms (hd 0 free)) st) [] = []).
    { intros i Hi. unfold push_stage. rewrite set_nth_nth by auto. assert ((i =? n)%nat = false) as -> by (apply Nat.eqb_neq; lia). auto. }
    destruct ((if np then S n else n) =? 3)%nat eqn:E.
    + injection H as <-. cbn [l_stages l_n]. apply Nat.eqb_eq in E. rewrite E. split; [auto|split; [lia|]]. intros i Hi. apply PF. lia.
    + apply Nat.eqb_neq in E. eapply IH; eauto; destruct np; try lia; intros i Hi; apply PF; lia.
  - destruct (negb _); [injection H as <-; cbn [l_stages l_n]; auto|]. destruct (all_empty st); [|discriminate H].
    destruct (a_load items free st n cpx) as [l'|] eqn:E; [|discriminate H]. injection H as <-. cbn [l_stages l_n]. eapply IH; eauto.
Qed.

Lemma anext_total : forall cp f, exists f' more evs, anext cp f = Some (f', more, evs) /\ (more = true -> (amu f' < amu f)%nat).
Proof.
  intros cp [tid ms stale]. unfold anext, amu. cbn [a_ms a_tid a_stale]. destruct ms as [|m r].
  - eexists _, _, _. split; [reflexivity|discriminate].
  - eexists _, _, _. split; [reflexivity|]. cbn [a_ms length]. lia.
Qed.

(** What is known of every depletion. *)
Lemma deplete_shape : forall cp pick k must st n, heap_front pick -> flushed st n ->
  exists k' st' n' fr' ls, deplete akey (anext cp) pick (S (weight amu st)) k must st n [] = Some (k', st', n', fr', ls) /\
    flushed st' n' /\ (n' <= 2)%nat /\ (must = true -> n' = 0%nat /\ forall i, nth i st' [] = []).
Proof.
  intros cp pick k must st n Hp HF.
  destruct (deplete_rule akey (anext cp) pick must amu (fun _ _ _ _ => True) (fun _ _ _ _ => True) Hp (anext_total cp)) with (fuel := S (weight amu st)) (k := k) (st := st) (n := n) (fr := @nil afrag) (acc := @nil oline)
    as (k' & st' & n' & fr' & evs & E & _ & E2); auto.
  - intros. cbv zeta. destruct (is_empty _); [destruct must|]; exact I.
  - exists k', st', n', fr', evs. auto.
Qed.

Lemma freed_ts : forall conv known fr cfr, Forall2 (stands conv known) fr cfr -> map bf_ts (map bf_reset cfr) = map akey fr.
Proof. intros conv known fr cfr H. induction H as [|f b l l' (_ & _ & H1) HF IHF]; cbn [map]; [reflexivity|]. cbn [bf_reset bf_ts]. congruence. Qed.

Lemma run_sim : forall conv pick, heap_front pick -> forall fuel cfuel k items known cp op pr bfm fr st cst n tail ls,
  items_ok conv known items -> torn conv (knows_all known items) tail ->
  Forall2 (Forall2 (stands conv known)) st cst -> flushed st n -> (n <= 2)%nat ->
  a_run pick fuel k items (map bf_ts fr) st n cp = Some ls -> (fuel + 1 < cfuel)%nat ->
  exists d' evs,
   ordered_loop conv pick cfuel k (Decoder op (File (file_bytes items ++ tail) false) pr bfm true cp fr (dict_of known)) cst n = Some (d', evs) /\
   map line_of evs = ls /\ d_printed d' = pr + zlen (messages ls) /\ (tail = [] -> d_good d' = true) /\ d_open d' = op /\ d_bf d' = bfm.
Proof.
  intros conv pick Hp. induction fuel as [|fuel IH]; intros cfuel k items known cp op pr bfm fr st cst n tail ls Hi Ht HS HF Hn HR Hfu; [discriminate HR|].
  destruct cfuel as [|cfuel]; [lia|]. cbn [a_run ordered_loop d_file f_eof d_good negb orb] in *.
  destruct (a_load items (map bf_ts fr) st n cp) as [l|] eqn:EL; [|discriminate HR].
  assert (Hn3 : (n < 3)%nat) by lia. cbn [f_rest].
  destruct (load_sim conv (length items) items (le_n _) known cp op pr bfm fr st cst n (S (S (length (file_bytes items ++ tail)))) tail l Hi Ht HS Hn3 EL ltac:(lia))
    as (d1 & cst1 & evs1 & known' & x & E1 & L1 & S1 & C1 & D1 & O1 & B1 & P1 & G1 & ND1 & DN1).
  rewrite E1.
  assert (FL : flushed (l_stages l) (l_n l)).
  { destruct HF as (F1 & F2 & F3). eapply a_load_three; eauto. intros i Hi'. apply F3. lia. }
  destruct (deplete_shape (l_cp l) pick k (l_must l) (l_stages l) (l_n l) Hp FL) as (k' & st2 & n2 & fr2 & ls2 & ED & FL2 & N2 & M2).
  rewrite ED in HR.
  destruct (deplete_sim akey bf_ts (anext (l_cp l)) (next_message conv (d_cp d1) (d_dict d1)) (stands conv known') line_of pick) with
    (fuel := S (weight amu (l_stages l))) (fuel' := deplete_fuel cst1) (k := k) (must := l_must l) (stA := l_stages l) (stB := cst1) (n := l_n l) (frA := @nil afrag) (frB := @nil bfrag)
    (k' := k') (st' := st2) (n' := n2) (fr' := fr2) (evs := ls2)
    as (cst2 & cfr2 & evs2 & ED2 & S2 & F2 & L2); auto.
  { intros a b (_ & _ & HK). auto. }
  { intros a b a' more evs HR1 HN. rewrite C1, D1. destruct (next_sim conv known' (l_cp l) a b a' more evs HR1 HN) as (b' & evs' & Y1 & Y2).
    exists b', evs'. split; auto. now apply next_message_app. }
  { eapply deplete_fuel_ok; eauto. }
  rewrite ED2. cbv zeta.
  assert (MI : msgs_in evs2 = zlen (messages ls2)) by (now apply no_msgs).
  pose proof (a_load_lines _ _ _ _ _ _ EL) as NL.
  destruct (l_done l) eqn:EDn.
  - injection HR as <-. destruct (DN1 eq_refl) as [EM [EOF|TC]].
    + destruct cfuel as [|cfuel]; [lia|]. cbn [ordered_loop d_file]. rewrite EOF. cbn [orb].
      eexists _, _. split; [reflexivity|]. cbn [d_printed d_good d_open d_bf]. rewrite app_nil_r, map_app, messages_app, NL. splits; auto; [congruence|].
      cbn [app]. lia.
    + destruct TC as (TNE & kn & junk & cpx & kk & T1 & T2 & T3 & T4). destruct (M2 EM) as [-> EE].
      destruct cfuel as [|[|cfuel]]; try lia. 
      assert (C0 : nth 0 cst2 [] = []).
      { pose proof (forall2_nth _ _ _ 0 S2) as K. rewrite EE in K. inversion K. reflexivity. }
      set (d2 := Decoder _ _ _ _ _ _ _ _).
      assert (ELD : load_stages (S (S (length (f_rest (d_file d2))))) d2 cst2 0 =
        Some (Decoder op (File [] true) (pr + msgs_in evs2) bfm false (d_cp d1) (map bf_reset cfr2 ++ d_free d1) (d_dict d1), cst2, 0%nat, true, [])).
      { cbn [load_stages]. subst d2. cbn [d_file d_good]. rewrite T3, T4. cbn [f_eof orb negb]. unfold load_entry. cbn [d_file d_open d_printed d_bf d_good d_cp d_free d_dict].
        rewrite (peek_torn conv kn) by (auto; lia). cbn [type_of].
        change (ET_CHECKPOINT =? ET_BUFFER_EXTENT) with false. change (ET_CHECKPOINT =? ET_CHECKPOINT) with true. cbv iota.
        rewrite C0. cbn [is_empty negb]. rewrite (torn_checkpoint conv kn) by (auto; lia).
        cbn [d_file f_eof orb d_good negb andb]. rewrite C0. cbn [is_empty negb]. rewrite O1, B1, P1. reflexivity. }
      cbn [ordered_loop]. rewrite ELD.
      replace (f_eof (d_file d2) || negb (d_good d2)) with false by (subst d2; cbn [d_file d_good]; rewrite T3, T4; reflexivity).
      unfold deplete_fuel. cbn [Nat.add deplete]. unfold fronts at 1. cbn [seq combine map min_stage option_map d_file f_eof orb d_open d_printed d_bf d_good d_cp d_free d_dict].
      eexists _, _. split; [reflexivity|]. cbn [d_printed d_good d_open d_bf]. rewrite !app_nil_r, map_app, messages_app, NL. splits; auto.
      * congruence.
      * change (msgs_in []) with 0. cbn [app]. lia.
  - destruct (ND1 eq_refl) as (NF & NG & -> & NFr & NI & NT).
    destruct (a_run pick fuel k' (l_items l) (map akey fr2 ++ l_free l) st2 n2 (l_cp l)) as [ls3|] eqn:ER; [|discriminate HR]. injection HR as <-.
    rewrite <- NFr, <- (freed_ts _ _ _ _ F2), <- map_app in ER. rewrite app_nil_r in D1.
    rewrite NF, NG, C1, D1, O1, B1, P1.
    destruct (IH cfuel k' (l_items l) known' (l_cp l) op (pr + msgs_in evs2) bfm (map bf_reset cfr2 ++ d_free d1) st2 cst2 n2 tail ls3 NI NT S2 FL2 N2 ER ltac:(lia))
      as (d' & evs3 & E3 & L3 & P3 & G3 & O3 & B3).
    rewrite E3. eexists _, _. split; [reflexivity|]. rewrite !map_app, !messages_app, NL, !zlen_app. splits; auto; [congruence|].
    rewrite P3, MI, zlen_nil. lia.
Qed.
