(** C73: what is printed when the program was killed. *)
From Verif Require Import Base BaseProofs Chars FrontFmt Args Printf ArgsProofs DecodeProofs Encoder Wire EncoderProofs Prop_Encoder Decoder FileSpec
  DecoderProofs Prop_Decoder Ordered OrderSpec Prop_Ordered Ring RingProofs Runtime RtRing RtBuf RtInv RtSafe RtFile Prop_Runtime Prop_Counters
  Prop_Disk RtRuns Prop_RuntimeRuns Prop_Sync.
From Coq Require Import Permutation.

(** ** Specification *)

(** Whatever the decoder was used for before, [ls] are the lines printed for the file [f], by unordered decompression,
    by iterating and, in some order, by ordered decompression; a file shorter than a checkpoint is rejected. *)
Definition printed (conv : rconv -> list Z) (f : list Z) (ls : list oline) : Prop :=
  if (length f <? 33)%nat then ls = [] /\ forall d, exists d1, d_open_file d f = Some (d1, false)
  else forall d, exists d1, d_open_file d f = Some (d1, true) /\
    (exists d2 evs n, decompressUnordered conv d1 = Some (d2, evs, n) /\ map line_of evs = ls) /\
    (bf_more (d_bf d) = false -> exists d2 evs, iterate conv (S (length (messages ls))) d1 = Some (d2, evs, false) /\ map line_of evs = ls) /\
    (forall pick, heap_front pick -> exists d2 evs,
      decompressTo conv pick d1 = Some (d2, evs, zlen (messages ls)) /\ Permutation (map line_of evs) ls).

(** The file when the program is killed: of what is being written, [k] bytes have reached it. *)
Definition killed (k : nat) (t : rt) : list Z := t_file t ++ firstn k (concat (in_flight t)).

(** What is printed for the files: per thread, messages it logged, in order, none left out in front of them; at least
    those of the writes that have ended. *)
Definition prefixes conv text (k : nat) (t : rt) : Prop :=
  exists lss ls done, Forall2 (printed conv) (t_olds t) lss /\ printed conv (killed k t) ls /\
    (forall b, In b (t_bufs t ++ t_gone t) -> exists n,
      Forall2 (shows (t_sites t) text (b_id b)) (firstn n (b_msgs b)) (concat (map (tid_lines (b_id b)) lss) ++ tid_lines (b_id b) ls)) /\
    (forall id, 0 <= id -> ~ In id (map b_id (t_bufs t ++ t_gone t)) -> concat (map (tid_lines id) lss) ++ tid_lines id ls = []) /\
    printed conv (t_file t) done /\ exists more, ls = done ++ more.

Definition C73_full : Prop := forall conv text k t,
  reach (fun l t => proper l t /\ printable conv text l t) t -> prefixes conv text k t.

(** ** One checkpoint for each file *)
Definition is_start (g : gitem) : bool := match g with GCheckpoint _ _ _ => true | _ => false end.
Definition once (gs : list gitem) : Prop := (length (filter is_start gs) <= 1)%nat.
Definition all_once (t : rt) : Prop := Forall once (t_golds t) /\ once (sect t).

Definition adds (t t' : rt) : Prop :=
  t_golds t' = t_golds t /\ exists x, sect t' = sect t ++ x /\ filter is_start x = [].

Lemma adds_once : forall t t', adds t t' -> all_once t -> all_once t'.
Proof.
  intros t t' (A & x & B & C) (D & E). unfold all_once, once in *. rewrite A, B, filter_app, C, app_nil_r. auto.
Qed.

Lemma adds_log : forall t t' x, t_golds t' = t_golds t -> t_gfile t' = t_gfile t -> t_gflight t' = t_gflight t ->
  t_glog t' = t_glog t ++ x -> filter is_start x = [] -> adds t t'.
Proof. intros t t' x A B C D E. unfold adds, sect. rewrite A, B, C, D. split; [reflexivity|]. exists x. now rewrite !app_assoc. Qed.

Ltac ad := solve
  [ unfold adds, sect; rt_cbn; split; [reflexivity|]; exists []; rewrite ?app_nil_r, ?app_assoc; split; reflexivity
  | eapply adds_log; rt_cbn; [reflexivity|reflexivity|reflexivity|reflexivity|]; match goal with |- context [if ?b then _ else _] => destruct b end; reflexivity ].

Lemma on_ring_adds : forall j l t t', on_ring j l t = Some t' -> adds t t'.
Proof.
  intros j l t t' E. unfold on_ring in E. destruct (nth_error (t_bufs t) j); [|discriminate].
  destruct (ring_step _ _ _); [|discriminate]. apply some_inj in E. subst t'. ad.
Qed.

Lemma notify_adds : forall t t', adds t t' -> adds t (notify t').
Proof. intros t t' K. unfold notify. destruct (t_waiters t') as [|w ws]; [exact K|]. destruct (w_switch w); exact K. Qed.

Lemma thread_adds : forall t t', k_step t = Some t' -> adds t t'.
Proof.
  intros t t' E. unfold k_step in E. cbv zeta in E. destruct (t_kpc t) eqn:EP.
  - apply some_inj in E. subst t'. ad.
  - apply some_inj in E. subst t'. unfold k_dict.
    destruct (t_nextp t <? zlen (t_sites t)); [destruct (encodeNewDictionaryEntries _ _ _) as [[e n] ret]|]; ad.
  - destruct (t_kfull t); [apply some_inj in E; subst; ad|].
    destruct (t_bufs t) eqn:EB; [apply some_inj in E; subst; ad|].
    destruct (on_ring (Z.to_nat (t_ki t)) LPeek t) as [t1|] eqn:ER; [|discriminate]. apply some_inj in E. subst t'.
    exact (on_ring_adds _ _ _ _ ER).
  - destruct (nth_error (t_bufs t) (Z.to_nat (t_ki t))) as [b|] eqn:EB; [|discriminate].
    destruct (c_pc (r_c (b_ring b))) eqn:EC; try discriminate; try exact (on_ring_adds _ _ _ _ E).
    destruct (0 <? n); [apply some_inj in E; subst; ad|].
    destruct (on_ring _ _ _) as [t1|] eqn:ER; [|discriminate]. apply some_inj in E. subst t'.
    exact (on_ring_adds _ _ _ _ ER).
  - destruct (nth_error (t_bufs t) (Z.to_nat (t_ki t))) as [b|] eqn:EB; [|discriminate].
    destruct (c_pc (r_c (b_ring b))) eqn:EC; try discriminate. destruct (n =? 0) eqn:EN.
    + apply some_inj in E. subst t'. ad.
    + unfold k_encode in E.
      destruct (encodeLogMsgs (t_en t) (s_data (r_mem (b_ring b))) (c_pos (r_c (b_ring b))) (Z.min RELEASE n) (b_id b) (t_kwrap t) (t_shadow t)) as [[e read] cnt].
      destruct (read =? 0); [apply some_inj in E; subst; ad|].
      destruct (ring_run _ _ _); [|discriminate]. apply some_inj in E. subst. ad.
  - destruct (nth_error (t_bufs t) (Z.to_nat (t_ki t))) as [b|] eqn:EB; [|discriminate].
    destruct (c_pc (r_c (b_ring b))) eqn:EC; try discriminate.
    destruct (on_ring _ _ _) as [t1|] eqn:ER; [|discriminate]. apply on_ring_adds in ER.
    destruct (nth_error (t_bufs t1) (Z.to_nat (t_ki t))) as [b'|] eqn:EB'; [|discriminate].
    destruct (c_pc (r_c (b_ring b'))) eqn:EC'; apply some_inj in E; subst t'; try exact ER.
    unfold k_delete. cbv zeta. destruct (remove_at _ _); exact ER.
  - apply some_inj in E. subst t'. ad.
  - apply some_inj in E. subst t'. unfold k_idle.
    destruct (encoded t =? 0); [|ad]. destruct (t_sync t); try ad; [|apply notify_adds; ad].
    destruct (t_outst t); [ad|apply notify_adds; ad].
  - unfold k_io in E. destruct (t_outst t) eqn:EO.
    + destruct (t_flight t) eqn:EF.
      * apply some_inj in E. subst t'. unfold k_finish_io. destruct (t_sync t); try ad; apply notify_adds; ad.
      * destruct (t_kfull t); [discriminate|]. apply some_inj in E. subst t'. ad.
    + apply some_inj in E. subst t'. ad.
  - apply some_inj in E. subst t'. unfold k_write. destruct (encoded t =? 0) eqn:E0; [ad|]. cbn [swapBuffer]. ad.
  - discriminate.
Qed.

Lemma step_once : forall l t t', rt_step l t = Some t' -> l <> RInterrupt -> all_once t -> all_once t'.
Proof.
  intros l t t' E NI H. destruct l; cbn [rt_step] in E; try (eapply adds_once; [eapply thread_adds; eassumption|exact H]); try congruence.
  all: repeat match type of E with
    | context [match ?x with _ => _ end] => destruct x; try discriminate E
    end; try (eapply adds_once; [exact (on_ring_adds _ _ _ _ E)|exact H]).
  all: apply some_inj in E; subst t'.
  all: try (apply (adds_once t); [|exact H]; first [ad | apply notify_adds; ad]).
  - apply (adds_once t); [|exact H]. unfold adds, sect. rt_cbn. split; [reflexivity|]. exists []. rewrite !app_nil_l, !app_nil_r. split; [now rewrite <- app_assoc|reflexivity].
  - destruct H as (A & B). split; rt_cbn; [apply Forall_app; split; [exact A|constructor; [exact B|constructor]]|].
    unfold once, sect. rt_cbn. cbn. lia.
Qed.

Lemma reach_once : forall conv text t, reach (normal conv text) t -> all_once t.
Proof.
  intros conv text t R. induction R as [m size b1 b2 r u c t H0 H1 H2 H3 E|l t t' R IH HO E].
  - unfold rt_init in E. destruct (encoder _ _ _ _ _ _ _); [|discriminate]. apply some_inj in E. subst t.
    split; [constructor|]. unfold once, sect. rt_cbn. cbn. lia.
  - apply (step_once l t t' E); auto. intros ->. destruct HO as (_ & U & _). unfold uninterrupted in U. congruence.
Qed.

(** ** One file, cut off *)
Lemma glines_new : forall conv text sites gs cp, filter is_start gs = [] ->
  (forall tid np xs, In (GExtent tid np xs) gs -> Forall (fun x => said conv sites x (text x)) xs) ->
  ~ In LNewExecution (glines text sites cp gs).
Proof.
  intros conv text sites. induction gs as [|[r u c|total ss|tid np xs] gs IH]; intros cp F HA HI; cbn [glines filter is_start] in *; [destruct HI|discriminate F| |].
  - apply (IH cp F); auto. intros. eapply HA. right. eauto.
  - apply in_app_or in HI. destruct HI as [HI | HI]; [|apply (IH cp F); auto; intros; eapply HA; right; eauto].
    apply in_map_iff in HI. destruct HI as (x & E & Hx). assert (X := HA tid np xs (or_introl eq_refl)).
    eapply Forall_forall in X; [|exact Hx]. destruct X as (s & ps & n & N & _). unfold gline in E. rewrite N in E. discriminate E.
Qed.

Lemma whole_mono : forall items k k' cp, (k <= k')%nat -> exists more, FileSpec.file_lines cp (whole k' items) = FileSpec.file_lines cp (whole k items) ++ more.
Proof.
  induction items as [|it items IH]; intros k k' cp H; [exists []; reflexivity|]. cbn [whole].
  destruct (length (item_bytes it) <=? k)%nat eqn:E.
  - replace (length (item_bytes it) <=? k')%nat with true by (symmetry; apply Nat.leb_le; apply Nat.leb_le in E; lia).
    assert (H' : (k - length (item_bytes it) <= k' - length (item_bytes it))%nat) by lia. generalize dependent (k - length (item_bytes it))%nat.
    generalize (k' - length (item_bytes it))%nat. intros a b H'. pose proof (fun cp => IH b a cp H') as Y.
    destruct it as [?|? ?|tid np ms|? cp']; cbn [FileSpec.file_lines].
    + apply Y.
    + apply Y.
    + destruct (Y cp) as (more & ->). exists more. now rewrite app_assoc.
    + destruct (Y cp') as (more & ->). now exists more.
  - exists (FileSpec.file_lines cp (if (length (item_bytes it) <=? k')%nat then it :: whole (k' - length (item_bytes it)) items else [])). reflexivity.
Qed.

Lemma whole_all : forall items k, (length (file_bytes items) <= k)%nat -> whole k items = items.
Proof.
  induction items as [|it items IH]; intros k H; [reflexivity|]. unfold file_bytes in *. cbn [map concat] in H. rewrite app_length in H. cbn [whole].
  replace (length (item_bytes it) <=? k)%nat with true by (symmetry; apply Nat.leb_le; lia). rewrite IH by lia. reflexivity.
Qed.

Lemma messages_perm : forall a b, Permutation a b -> length (messages a) = length (messages b).
Proof.
  intros a b P. unfold messages. induction P as [|x a b P IH|x y a|a b c P1 IH1 P2 IH2]; cbn [map concat]; rewrite ?app_length in *; auto; try lia.
Qed.

(** The lines printed for the first [k] bytes of the file. *)
Lemma file_cut : forall conv text sites gs f, Forall site_ok sites -> wires True sites gs f -> gok sites 0 gs -> (gs = [] \/ starts gs) -> once gs ->
  (forall tid np xs, In (GExtent tid np xs) gs -> Forall (fun x => said conv sites x (text x)) xs) ->
  exists L : nat -> list oline, (forall k, printed conv (firstn k f) (L k)) /\
    (forall k k', (k <= k')%nat -> exists more, L k' = L k ++ more) /\
    forall k id, exists n, Forall2 (shows sites text id) (firstn n (emitted id gs)) (tid_lines id (L k)) /\
      ((length f <= k)%nat -> (length (emitted id gs) <= n)%nat).
Proof.
  intros conv text sites gs f Hok HW HG HS HO HA. destruct HS as [-> | HS].
  - exists (fun _ => []). assert (f = []) as -> by (destruct HW as (bss & W & ->); now inversion W). splits.
    + intros k. rewrite firstn_nil. unfold printed. cbn [length Nat.ltb Nat.leb]. split; auto. intros d. eexists. reflexivity.
    + intros. exists []. reflexivity.
    + intros. exists 0%nat. split; [constructor|]. cbn. lia.
  - pose proof HS as (r & u & c & gs' & E).
    destruct (wires_items True conv text sites gs f 0 (Checkpoint r u c) I Hok HW HG ltac:(lia) HA) as (items & I1 & I2 & I3 & I4).
    destruct (I4 HS) as (junk & cp & its & EI). subst items gs. cbn [FileSpec.file_lines glines] in I3.
    assert (HA' : forall tid np xs, In (GExtent tid np xs) gs' -> Forall (fun x => said conv sites x (text x)) xs) by (intros; eapply HA; right; eauto).
    assert (F : file_ok conv (ICheckpoint junk cp :: its)) by exact I2.
    assert (X : FileSpec.file_lines cp its = glines text sites (Checkpoint r u c) gs') by congruence.
    assert (O1 : filter is_start gs' = []).
    { unfold once in HO. cbn [filter is_start] in HO. destruct (filter is_start gs'); [reflexivity|cbn in HO; lia]. }
    assert (ONE : one_execution its) by (apply (one_execution_lines cp); rewrite X; eapply glines_new; eauto).
    exists (fun k => lines_of (whole k (ICheckpoint junk cp :: its))).
    pose proof F as [Hc _]. pose proof Hc as (_ & _ & _ & Hl & _).
    pose proof (checkpoint_zlen junk (cp_rdtsc cp) (cp_unixTime cp) (cp_cps cp) Hl) as Z1.
    assert (L33 : length (item_bytes (ICheckpoint junk cp)) = 33%nat) by (cbn [item_bytes]; unfold zlen in Z1; lia).
    assert (LF : (33 <= length f)%nat) by (rewrite <- I1; unfold file_bytes; cbn [map concat]; rewrite app_length, L33; lia).
    assert (W33 : forall k, (33 <= k)%nat -> whole k (ICheckpoint junk cp :: its) = ICheckpoint junk cp :: whole (k - 33) its).
    { intros k Hk. cbn [whole]. rewrite L33. replace (33 <=? k)%nat with true by (symmetry; apply Nat.leb_le; lia). reflexivity. }
    assert (WN : forall k, (k < 33)%nat -> lines_of (whole k (ICheckpoint junk cp :: its)) = []).
    { intros k Hk. cbn [whole]. rewrite L33. replace (33 <=? k)%nat with false by (symmetry; apply Nat.leb_gt; lia). reflexivity. }
    splits.
    + intros k. rewrite <- I1. unfold printed. pose proof (fun d => C23_truncated conv d _ k F) as T. cbv zeta in T. rewrite firstn_length, I1.
      destruct (Nat.ltb_spec k 33) as [Hk | Hk].
      * replace (Nat.min k (length f) <? 33)%nat with true by (symmetry; apply Nat.ltb_lt; lia). split; [now apply WN|].
        intros d. destruct (T d) as (_ & d1 & D1 & _). exists d1. rewrite <- I1. exact D1.
      * replace (Nat.min k (length f) <? 33)%nat with false by (symmetry; apply Nat.ltb_ge; lia). intros d.
        destruct (T d) as (_ & d1 & d2 & evs & n & D1 & D2 & D3 & D4). exists d1. rewrite <- I1. splits; auto.
        -- exists d2, evs, n. split; assumption.
        -- intros pick Hp. destruct (C20_ordered_complete_partial conv pick d junk cp its k Hp F ONE Hk) as (d1' & d3 & evs' & G1 & G2 & G3).
           assert (d1' = d1) by congruence. subst d1'. rewrite (W33 k Hk). cbn [lines_of]. exists d3, evs'. split; [|exact G3].
           unfold zlen in *. rewrite <- (messages_perm _ _ G3). exact G2.
    + intros k k' Hk. destruct (Nat.ltb_spec k 33) as [Hk3 | Hk3]; [rewrite (WN k Hk3); eexists; reflexivity|].
      rewrite !W33 by lia. cbn [lines_of]. apply whole_mono. lia.
    + intros k id. change (emitted id (GCheckpoint r u c :: gs')) with (emitted id gs').
      assert (A := glines_tid conv text sites gs' (Checkpoint r u c) id HA'). rewrite <- X in A.
      destruct (C23_truncated conv new_decoder _ k F) as ((rest & P) & _). change (lines_of (ICheckpoint junk cp :: its)) with (FileSpec.file_lines cp its) in P. rewrite P, tid_lines_app in A.
      apply Forall2_app_inv_r in A. destruct A as (l1 & l2 & A1 & A2 & A3). exists (length l1).
      rewrite A3, firstn_app, Nat.sub_diag, firstn_all. cbn [firstn]. rewrite app_nil_r. split; [exact A1|].
      intros Hk. rewrite app_length. rewrite whole_all in P by (rewrite I1; exact Hk). cbn [lines_of] in P.
      assert (rest = []) by (apply (f_equal (@length _)) in P; rewrite app_length in P; destruct rest; [reflexivity|cbn in P; lia]).
      subst rest. inversion A2. subst. cbn. lia.
Qed.

(** ** The theorem *)

(** The program may be killed in any state of any execution, when any part of what is being written is in the file. *)
Theorem C73_killed_partial : forall conv text k t, reach (normal conv text) t -> prefixes conv text k t.
Proof.
  intros conv text k t R. pose proof (normal_inv _ _ _ R) as H. destruct (reach_once _ _ _ R) as (OO & OS).
  assert (HS : inv_said conv text t) by (eapply reach_said; [|exact R]; intros l0 t0 (_ & _ & _ & D); exact D).
  pose proof H as H'. inv_split H'.
  assert (SA : forall tid np xs, In (GExtent tid np xs) (everything t) -> Forall (fun x => said conv (t_sites t) x (text x)) xs \/ tid < 0).
  { intros tid np xs HI. destruct (Z.lt_ge_cases tid 0) as [|HT]; [now right|left]. destruct xs as [|x0 xs0] eqn:EX; [constructor|]. rewrite <- EX in *.
    destruct (emitted_buf True t tid H HT) as (b & B1 & B2 & n & B3).
    { intro X. assert (Y := emitted_in tid np xs _ x0 HI ltac:(rewrite EX; now left)). rewrite X in Y. destruct Y. }
    apply Forall_forall. intros x Hx. assert (Y := emitted_in tid np xs _ x HI Hx). rewrite B3 in Y.
    unfold inv_said in HS. eapply Forall_forall in HS; eauto. cbv beta in HS. eapply Forall_forall in HS; [exact HS|].
    rewrite <- (firstn_skipn n (b_msgs b)). apply in_or_app. now left. }
  destruct HKn as (K1 & K2 & _). unfold everything, sect in *. destruct HSi as (HSi & _).
  assert (HB : forall gs f, wires True (t_sites t) gs f -> (forall g, In g gs -> In g (concat (t_golds t) ++ t_gfile t ++ t_gflight t ++ t_glog t)) ->
    forall tid np xs, In (GExtent tid np xs) gs -> Forall (fun x => said conv (t_sites t) x (text x)) xs).
  { intros gs f W X tid np xs HI. destruct (SA tid np xs (X _ HI)) as [Y | Y]; auto.
    destruct W as (bss & W & _). clear - W HI Y. induction W as [|g b gs bss W _ IH]; [destruct HI|]. destruct HI as [-> | HI]; [|auto].
    cbn [wire] in W. lia. }
  (* the files before *)
  assert (OL : exists lss, Forall2 (printed conv) (t_olds t) lss /\
    forall id, Forall2 (shows (t_sites t) text id) (emitted id (concat (t_golds t))) (concat (map (tid_lines id) lss))).
  { unfold inv_olds in HOl. assert (XX : forall g, In g (concat (t_golds t)) -> In g (concat (t_golds t) ++ t_gfile t ++ t_gflight t ++ t_glog t)).
    { intros. apply in_or_app. now left. }
    set (all := concat (t_golds t) ++ t_gfile t ++ t_gflight t ++ t_glog t) in *. clearbody all. clear - HOl HB XX OO HSi.
    induction HOl as [|g f gs fs (A & B & C) _ IH]; [exists []; split; constructor|]. inversion OO as [|? ? O1 O2]; subst.
    destruct IH as (lss & L1 & L2); [exact O2|intros x Hx; apply XX; cbn [concat]; apply in_or_app; now right|].
    destruct (file_cut conv text (t_sites t) g f HSi A B (or_intror C) O1) as (L & P1 & _ & P3).
    { apply (HB g f A). intros x Hx. apply XX. cbn [concat]. apply in_or_app. now left. }
    exists (L (length f) :: lss). split; [constructor; [|exact L1]; specialize (P1 (length f)); now rewrite firstn_all in P1|].
    intros id. cbn [concat map]. rewrite emitted_app. apply Forall2_app; [|apply L2].
    destruct (P3 (length f) id) as (n & Q1 & Q2). rewrite firstn_all2 in Q1 by (apply Q2; lia). exact Q1. }
  destruct OL as (lss & L1 & L2).
  (* the current one *)
  assert (FL : wires True (t_sites t) (t_gflight t) (concat (in_flight t))).
  { unfold in_flight. destruct HFl as [(-> & ->) | (_ & n & -> & _ & F)]; [apply wires_nil|]. cbn [map concat fst snd]. now rewrite app_nil_r. }
  rewrite app_assoc in K1, K2, OS.
  destruct (file_cut conv text (t_sites t) (t_gfile t ++ t_gflight t) (t_file t ++ concat (in_flight t)) HSi (wires_app _ _ _ _ _ _ HFi FL)) as (L & P1 & P2 & P3).
  { rewrite gok_app in K1. tauto. }
  { destruct K2 as (r & u & c & gs & E). destruct (t_gfile t ++ t_gflight t) as [|g gf]; auto. right. cbn [app] in E. exists r, u, c, gf. congruence. }
  { unfold once in *. rewrite filter_app, app_length in OS. lia. }
  { apply (HB _ _ (wires_app _ _ _ _ _ _ HFi FL)). intros g Hg. apply in_or_app. right. rewrite app_assoc. apply in_or_app. now left. }
  exists lss, (L (length (t_file t) + k)%nat), (L (length (t_file t))). splits; auto.
  - specialize (P1 (length (t_file t) + k)%nat). unfold killed. rewrite firstn_app in P1. rewrite firstn_all2 in P1 by lia.
    replace (length (t_file t) + k - length (t_file t))%nat with k in P1 by lia. exact P1.
  - intros b Hb. destruct (P3 (length (t_file t) + k)%nat (b_id b)) as (n & Q1 & _).
    destruct (written_prefix True t b H Hb) as (N & X & _). rewrite (app_assoc (t_gfile t)), app_assoc, emitted_app, emitted_app, <- app_assoc in X.
    exists (length (emitted (b_id b) (concat (t_golds t)) ++ firstn n (emitted (b_id b) (t_gfile t ++ t_gflight t)))).
    assert (EF : firstn (length (emitted (b_id b) (concat (t_golds t)) ++ firstn n (emitted (b_id b) (t_gfile t ++ t_gflight t)))) (b_msgs b) =
      emitted (b_id b) (concat (t_golds t)) ++ firstn n (emitted (b_id b) (t_gfile t ++ t_gflight t))).
    { clear - X. set (Q := emitted (b_id b) (t_gfile t ++ t_gflight t)) in *. set (P := emitted (b_id b) (concat (t_golds t))) in *. clearbody P Q.
      assert (Y : b_msgs b = (P ++ firstn n Q) ++ skipn n Q ++ emitted (b_id b) (t_glog t) ++ skipn N (b_msgs b)).
      { rewrite <- (firstn_skipn N (b_msgs b)) at 1. rewrite <- X, <- !app_assoc. f_equal. rewrite app_assoc, <- app_assoc. now rewrite (app_assoc (firstn n Q)), firstn_skipn. }
      rewrite Y at 1. rewrite firstn_app, Nat.sub_diag, firstn_all. cbn [firstn]. now rewrite app_nil_r. }
    rewrite EF. apply Forall2_app; [apply L2|exact Q1].
  - intros id H0 HN. destruct (P3 (length (t_file t) + k)%nat id) as (n & Q1 & _).
    assert (X : emitted id (concat (t_golds t) ++ t_gfile t ++ t_gflight t ++ t_glog t) = []).
    { destruct (emitted id (concat (t_golds t) ++ t_gfile t ++ t_gflight t ++ t_glog t)) eqn:EE; auto. exfalso. apply HN.
      destruct (emitted_buf True t id H H0) as (b & B1 & B2 & _).
      - unfold everything, sect. rewrite EE. discriminate.
      - rewrite <- B2. now apply in_map. }
    rewrite (app_assoc (t_gfile t)), app_assoc, emitted_app, emitted_app in X. apply app_eq_nil in X. destruct X as (X & _).
    apply app_eq_nil in X. destruct X as (X1 & X2). rewrite X2, firstn_nil in Q1. specialize (L2 id). rewrite X1 in L2.
    inversion L2 as [E1 E2|]. inversion Q1 as [E3 E4|]. reflexivity.
  - specialize (P1 (length (t_file t))). rewrite firstn_app, Nat.sub_diag, firstn_all, firstn_O, app_nil_r in P1. exact P1.
  - apply P2. lia.
Qed.
Print Assumptions C73_killed_partial.

(** What a call of sync() was for is printed whenever the program is killed later (conditions of C30). *)
Definition survives conv text (k : nat) (t : rt) : Prop :=
  exists lss ls, Forall2 (printed conv) (t_olds t) lss /\ printed conv (killed k t) ls /\
    forall snap id j, In snap (t_returned t) -> In (id, j) snap -> forall b, In b (t_bufs t ++ t_gone t) -> b_id b = id ->
      Forall2 (shows (t_sites t) text id) (firstn j (b_msgs b)) (firstn j (concat (map (tid_lines id) lss) ++ tid_lines id ls)).

Lemma printed_decodes : forall conv f a b, printed conv f a -> decodes conv f b -> a = b.
Proof.
  intros conv f a b P D. unfold printed in P. destruct D as [(-> & ->) | (d1 & d2 & evs & A & B & C & _)]; [now destruct P|].
  destruct (length f <? 33)%nat.
  - destruct P as (_ & P). destruct (P new_decoder) as (d & E). congruence.
  - destruct (P new_decoder) as (d & E & (d3 & evs' & n & F & G) & _). assert (d = d1) by congruence. subst d. congruence.
Qed.

Theorem C73_after_sync_partial : forall conv text k t, reach (quiet_sync conv text) t -> survives conv text k t.
Proof.
  intros conv text k t R.
  assert (RN : reach (normal conv text) t) by (eapply reach_weaken; [|exact R]; intros ? ? (X & _); exact X).
  destruct (C73_killed_partial conv text k t RN) as (lss & ls & done & P1 & P2 & _ & _ & P3 & more & P4).
  destruct (C30_sync_durable_partial conv text t R) as (lss0 & D1 & D2). exists lss, ls. splits; auto.
  assert (E : lss0 = lss ++ [done]).
  { clear - D1 P1 P3. revert lss0 D1. induction P1 as [|f l fs lss P _ IH]; intros lss0 D; cbn [app] in D.
    - inversion D as [|? ? ? ? A B]; subst. inversion B; subst. cbn [app]. f_equal. symmetry. eapply printed_decodes; eauto.
    - inversion D as [|? ? ? ? A B]; subst. cbn [app]. f_equal; [symmetry; eapply printed_decodes; eauto|auto]. }
  intros snap id j Hs Hi b Hb Eb. destruct (D2 snap id j Hs Hi) as (LE & S). specialize (S b Hb Eb).
  rewrite E, map_app, concat_app in LE, S. cbn [map concat] in LE, S. rewrite app_nil_r in LE, S.
  rewrite P4, tid_lines_app, app_assoc, firstn_app. replace (j - length _)%nat with 0%nat by lia. rewrite firstn_O, app_nil_r. exact S.
Qed.
Print Assumptions C73_after_sync_partial.

(** A signal during aio_suspend again: the file then has no checkpoint in front. *)
Theorem C73_refuted : ~ C73_full.
Proof.
  intro H. destruct signal_ends as (t & E & F & _ & _ & O).
  assert (R : reach (fun l t => proper l t /\ printable Prop_Message.show textof l t) t).
  { apply (demo_states _ 100 1 signal_run t); try lia; auto. intros l s (N1 & _ & _ & N2). now split. }
  destruct (H _ _ 0%nat t R) as (lss & ls & done & _ & _ & _ & _ & D & _). rewrite F in D. unfold printed in D. cbn [length Nat.ltb Nat.leb] in D.
  destruct (D new_decoder) as (d1 & D1 & _). vm_compute in D1. discriminate D1.
Qed.
Print Assumptions C73_refuted.

(** Killed while the second write, of one message, is going on: with nine of its ten bytes the message is not printed,
    with all of them it is.  Killed during the first write: a part of the messages, or a file that is rejected. *)
Definition second_write : list rlabel := good_run ++ think 2 ++ log 0 (msg 9 4) ++ think 16.
Definition first_write : list rlabel := log 0 (msg 5 1) ++ log 1 (msg 6 2) ++ log 0 (msg 7 3) ++ think 17.

Example C73_instance :
  match demo_run 200 2 second_write, demo_run 200 2 first_write with
  | Some t, Some t1 => length (concat (in_flight t)) = 10%nat /\ length (concat (in_flight t1)) = 85%nat /\ t_file t1 = [] /\
      map (fun k => read_back (killed k t)) [0; 9; 10]%nat =
        [Some [(0, chars "n=" ++ [1]); (0, chars "n=" ++ [3]); (1, chars "n=" ++ [2])];
         Some [(0, chars "n=" ++ [1]); (0, chars "n=" ++ [3]); (1, chars "n=" ++ [2])];
         Some [(0, chars "n=" ++ [1]); (0, chars "n=" ++ [3]); (1, chars "n=" ++ [2]); (0, chars "n=" ++ [4])]] /\
      map (fun k => read_back (killed k t1)) [32; 33; 74; 75; 84]%nat =
        [None; Some []; Some []; Some [(0, chars "n=" ++ [1]); (0, chars "n=" ++ [3])]; Some [(0, chars "n=" ++ [1]); (0, chars "n=" ++ [3])]]
  | _, _ => False
  end.
Proof. vm_compute. splits; reflexivity. Qed.
