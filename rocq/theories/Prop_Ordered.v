(** C20, C21, C22: ordered decompression. *)
From Verif Require Import Base BaseProofs Packer PackerProofs LogHeader Chars Fmt FmtProofs FrontFmt Prop_FrontFmt MicroCode Prop_MicroCode
  Args Printf ArgsProofs Prop_Args Decode DecodeProofs Prop_Message Encoder Wire EncoderProofs Prop_Encoder Decoder FileSpec DecoderProofs
  Prop_Decoder Ordered OrderedProofs OrderSpec OrderTheory.
From Coq Require Import Permutation Sorted.

(** ** The full claims *)
(** C20: each message of the file is printed once. *)
Definition ordered_complete : Prop := forall conv pick d items, heap_front pick -> file_ok conv items ->
  exists d1 d2 evs n,
    d_open_file d (file_bytes items) = Some (d1, true) /\ decompressTo conv pick d1 = Some (d2, evs, n) /\
    Permutation (messages (map line_of evs)) (messages (lines_of items)).

(** C21: displacement by less than three passes is undone. *)
Definition ordered_chronological (k : nat) : Prop := forall conv pick items, heap_front pick -> file_ok conv items ->
  one_execution (tl items) -> extents_sorted items -> displaced k (passes items) ->
  exists d1 d2 evs n,
    d_open_file new_decoder (file_bytes items) = Some (d1, true) /\ decompressTo conv pick d1 = Some (d2, evs, n) /\
    chronological (map line_of evs).

(** C22: executions do not mix. *)
Definition ordered_by_execution : Prop := forall conv pick d junk cp items, heap_front pick -> file_ok conv (ICheckpoint junk cp :: items) ->
  exists d1 d2 evs n,
    d_open_file d (file_bytes (ICheckpoint junk cp :: items)) = Some (d1, true) /\ decompressTo conv pick d1 = Some (d2, evs, n) /\
    by_execution (fun _ => True) (executions cp items) (map line_of evs).

(** ** What holds *)
Lemma nonpads_length : forall conv items known, items_ok conv known items -> (nonpads items <= length (file_bytes items))%nat.
Proof.
  intros conv. induction items as [|it items IH]; intros known H; [cbn; lia|]. destruct H as [Hit H]. specialize (IH _ H).
  unfold file_bytes in *. cbn [map concat]. rewrite app_length.
  assert (P : is_pad it = false -> (1 <= length (item_bytes it))%nat).
  { intro Hp. destruct it as [?|t ss|tid np ms|j cp]; [discriminate Hp| | |]; cbn [item_bytes].
    - pose proof (dict_bytes_zlen t ss). pose proof (zlen_nonneg _ (concat (map dict_entry ss))). unfold zlen in *. lia.
    - pose proof (extent_zlen tid np (map fm_w ms)) as X. pose proof (zlen_nonneg _ (tid_bytes tid)). pose proof (zlen_nonneg _ (wmsgs_bytes 0 (map fm_w ms))). unfold zlen in *. lia.
    - destruct Hit as (_ & _ & _ & Hl & _). pose proof (checkpoint_zlen j (cp_rdtsc cp) (cp_unixTime cp) (cp_cps cp) Hl) as X. unfold zlen in X. lia. }
  unfold nonpads in *. cbn [filter]. destruct (is_pad it); cbn [negb length]; [lia|]. specialize (P eq_refl). lia.
Qed.

Lemma ordered_file : forall conv pick d junk cp items tail ls, heap_front pick ->
  items_ok conv [] (ICheckpoint junk cp :: items) -> torn conv (knows_all [] items) tail ->
  a_run pick (nonpads items + 1) 0 items (map bf_ts (d_free d)) [[]; []; []] 0 cp = Some ls ->
  exists d1 d2 evs,
    d_open_file d (file_bytes (ICheckpoint junk cp :: items) ++ tail) = Some (d1, true) /\
    decompressTo conv pick d1 = Some (d2, evs, zlen (messages ls)) /\ map line_of evs = ls /\ (tail = [] -> d_good d2 = true).
Proof.
  intros conv pick d junk cp items tail ls Hp [Hc Hi] Ht HR. cbn [knows] in Hi. eexists. unfold decompressTo.
  rewrite (open_spec conv) by auto.
  pose proof (nonpads_length _ _ _ Hi) as NL.
  destruct (run_sim conv pick Hp (nonpads items + 1) (2 * length (file_bytes items ++ tail) + 4) 0 items [] cp true 0 (d_bf d) (d_free d)
    [[]; []; []] [[]; []; []] 0 tail ls Hi Ht) as (d2 & evs & E1 & E2 & E3 & E4 & _); auto.
  - split; [reflexivity|split; [lia|]]. intros [|[|[|i]]] _; try reflexivity. destruct i; reflexivity.
  - rewrite app_length. lia.
  - change (dict_of []) with (@nil dentry) in E1. eexists _, evs. split; [reflexivity|]. cbn [d_open negb d_file f_rest]. rewrite E1.
    split; [|split; auto]. rewrite E3. reflexivity.
Qed.

Lemma flushed_start : flushed (@nil afrag :: [[]; []]) 0.
Proof. split; [reflexivity|split; [lia|]]. intros [|[|[|[|i]]]] _; reflexivity. Qed.

Lemma passes_tl : forall j cp items, passes (ICheckpoint j cp :: items) = passes items.
Proof. reflexivity. Qed.

Lemma total_start : forall items, total [[]; []; []] 0 items = passes items.
Proof. intros. unfold total. cbn [firstn map nth app]. destruct (passes_cons items) as (p & ps & ->). reflexivity. Qed.

Lemma enough_passes : forall T, passes_nonempty T -> enough T.
Proof.
  intros T H. unfold enough, passes_nonempty in *. set (R := removelast T) in *. clearbody R. split.
  - destruct R as [|a R]; cbn [length nth]; [lia|]. intros _. left. now inversion H.
  - destruct R as [|a [|b R]]; cbn [skipn]; [constructor|constructor|]. inversion H as [|? ? _ H1]; subst. inversion H1; auto.
Qed.

Lemma start_in_time : forall items free, (extents_nonempty items \/ forall t, In t (0 :: free) -> below t (flat_map item_msgs items)) ->
  extents_sorted items -> displaced 2 (passes items) -> passes_nonempty (passes items) -> in_time [[]; []; []] 0 items free [].
Proof.
  intros items free H1 H2 H3 H4. unfold in_time. rewrite total_start. splits; auto; [|now apply enough_passes].
  unfold ordered. cbn [concat app]. splits; try (intros ? []). constructor.
Qed.

Lemma passes_extents : forall items, extents_nonempty items -> passes_nonempty (passes items).
Proof.
  unfold passes_nonempty. induction items as [|it items IH]; intro H; [constructor|].
  assert (IH' : Forall (fun p => p <> []) (removelast (passes items))) by (apply IH; intros tid np ms Hin; apply (H tid np ms); now right).
  destruct it as [?|? ?|tid np ms|? ?]; cbn [passes]; auto.
  assert (HN : ms <> []) by (apply (H tid np ms); now left).
  destruct (passes_cons items) as (p & ps & E). rewrite E in *. destruct np.
  - change (removelast (ms :: p :: ps)) with (ms :: removelast (p :: ps)). constructor; auto.
  - destruct ps as [|q ps]; [constructor|]. change (removelast (?a :: q :: ps)) with (a :: removelast (q :: ps)) in *.
    change (removelast ((ms ++ p) :: q :: ps)) with ((ms ++ p) :: removelast (q :: ps)).
    change (removelast (p :: q :: ps)) with (p :: removelast (q :: ps)) in IH'. inversion IH'; subst. constructor; auto.
    destruct ms; [congruence|discriminate].
Qed.

(** C20 for files with one execution, cut off anywhere.  [whole k] are the items
    complete in the first [k] bytes. *)
Lemma one_execution_lines : forall cp items, one_execution items <-> ~ In LNewExecution (file_lines cp items).
Proof.
  intros cp items. unfold one_execution. induction items as [|it items IH]; [split; [intros _ []|constructor]|].
  destruct it as [?|? ?|tid np ms|? ?]; cbn [file_lines].
  1,2: rewrite <- IH; split; [intro H; now inversion H|constructor; auto].
  - rewrite in_app_iff. split.
    + intros H [HI|HI]; [apply in_map_iff in HI; destruct HI as (x & E & _); discriminate E|]. inversion H; subst. now apply IH in HI.
    + intro H. constructor; [reflexivity|]. apply IH. tauto.
  - split; [intro H; inversion H as [|? ? X _]; discriminate X|intro H; exfalso; apply H; now left].
Qed.

Lemma whole_one : forall k items, one_execution items -> one_execution (whole k items).
Proof.
  intros k items. revert k. induction items as [|it items IH]; intros k H; [exact H|]. cbn [whole]. inversion H; subst.
  destruct (_ <=? _)%nat; [constructor; auto; now apply IH|constructor].
Qed.

Theorem C20_ordered_complete_partial : forall conv pick d junk cp items k, heap_front pick -> file_ok conv (ICheckpoint junk cp :: items) ->
  one_execution items -> (33 <= k)%nat ->
  exists d1 d2 evs,
    d_open_file d (firstn k (file_bytes (ICheckpoint junk cp :: items))) = Some (d1, true) /\
    decompressTo conv pick d1 = Some (d2, evs, zlen (messages (map line_of evs))) /\
    Permutation (map line_of evs) (file_lines cp (whole (k - 33) items)).
Proof.
  intros conv pick d junk cp items k Hp [Hc Hi] H1 Hk. cbn [knows] in Hi. pose proof Hc as (_ & _ & _ & Hl & _).
  pose proof (checkpoint_zlen junk (cp_rdtsc cp) (cp_unixTime cp) (cp_cps cp) Hl) as Z1.
  assert (L33 : length (item_bytes (ICheckpoint junk cp)) = 33%nat) by (cbn [item_bytes]; unfold zlen in Z1; lia).
  destruct (cut_items conv items (k - 33) [] Hi) as (items' & tail & E1 & E2 & E3 & E4).
  assert (EC : firstn k (file_bytes (ICheckpoint junk cp :: items)) = file_bytes (ICheckpoint junk cp :: items') ++ tail).
  { rewrite file_cons, <- E1. unfold file_bytes at 1. cbn [map concat]. rewrite firstn_app, L33. rewrite firstn_all2 by lia. reflexivity. }
  assert (O' : one_execution items') by (apply (one_execution_lines cp); rewrite E4; apply one_execution_lines, whole_one, H1).
  rewrite EC. destruct (run_last pick Hp (nonpads items' + 1) 0 items' (map bf_ts (d_free d)) [[]; []; []] 0 cp O' flushed_start ltac:(lia) (le_n _)) as (P & ER & PP & _).
  destruct (ordered_file conv pick d junk cp items' tail P Hp (conj Hc E2) E3 ER) as (d1 & d2 & evs & F1 & F2 & F3 & _).
  exists d1, d2, evs. rewrite F3. splits; auto. rewrite <- E4. exact PP.
Qed.
Print Assumptions C20_ordered_complete_partial.

(** C21 when messages are displaced by less than two passes, and every pass has a
    message.  The timestamps left in the fragments the decoder has from
    earlier files must not exceed those of the file, if it has empty extents. *)
Theorem C21_chronological_partial : forall conv pick d junk cp items, heap_front pick -> file_ok conv (ICheckpoint junk cp :: items) ->
  one_execution items -> extents_sorted items -> displaced 2 (passes items) -> passes_nonempty (passes items) ->
  (extents_nonempty items \/ forall b tid np ms m, In b (d_free d) -> In (IExtent tid np ms) items -> In m ms -> bf_ts b <= w_ts (fm_w m)) ->
  exists d1 d2 evs,
    d_open_file d (file_bytes (ICheckpoint junk cp :: items)) = Some (d1, true) /\
    decompressTo conv pick d1 = Some (d2, evs, zlen (messages (map line_of evs))) /\
    Permutation (map line_of evs) (file_lines cp items) /\ chronological (map line_of evs) /\ d_good d2 = true.
Proof.
  intros conv pick d junk cp items Hp Hf H1 H2 H3 H4 H5.
  destruct (run_last pick Hp (nonpads items + 1) 0 items (map bf_ts (d_free d)) [[]; []; []] 0 cp H1 flushed_start ltac:(lia) (le_n _)) as (P & ER & PP & PC).
  destruct (ordered_file conv pick d junk cp items [] P Hp Hf (or_introl eq_refl) ER) as (d1 & d2 & evs & F1 & F2 & F3 & F4).
  rewrite app_nil_r in F1. exists d1, d2, evs. rewrite F3. splits; auto. apply (PC []). apply start_in_time; auto.
  destruct H5 as [H5|H5]; [now left|right]. intros t Ht m Hm.
  apply in_flat_map in Hm. destruct Hm as (it & Hit & Hm). destruct it as [?|? ?|tid np ms|? ?]; try contradiction Hm. cbn [item_msgs] in Hm. destruct Ht as [<-|Ht].
  - assert (G : forall l known, items_ok conv known l -> In (IExtent tid np ms) l -> exists known', Forall (fmsg_ok conv known') ms).
    { induction l as [|x l IHl]; intros known Hl Hin; [contradiction|]. destruct Hl as [Hx Hl]. destruct Hin as [->|Hin]; [|now apply (IHl _ Hl)].
      exists known. apply Hx. }
    destruct Hf as [_ Hf]. destruct (G _ _ Hf Hit) as (known' & HF). rewrite Forall_forall in HF. specialize (HF m Hm). unfold fmsg_ok in HF. unfold ts. tauto || (destruct HF as (? & ? & ?); lia).
  - apply in_map_iff in Ht. destruct Ht as (b & <- & Hb). eapply H5; eauto.
Qed.
Print Assumptions C21_chronological_partial.

(** C22 when every execution but the last is in order from pass to pass and has no empty extents. *)
Lemma executions_cons : forall items cp, exists l es, executions cp items = (cp, l) :: es.
Proof.
  induction items as [|it items IH]; intro cp; [eexists _, _; reflexivity|]. destruct (IH cp) as (l & es & E).
  destruct it as [?|? ?|? ? ?|? ?]; cbn [executions]; rewrite ?E; eexists _, _; reflexivity.
Qed.

Lemma executions_split : forall items cp,
  (one_execution items /\ executions cp items = [(cp, items)]) \/
  (exists seg j cp' r, one_execution seg /\ items = seg ++ ICheckpoint j cp' :: r /\ executions cp items = (cp, seg) :: executions cp' r).
Proof.
  induction items as [|it items IH]; intro cp; [left; split; [constructor|reflexivity]|].
  assert (C : is_checkpoint it = false \/ exists j cp', it = ICheckpoint j cp') by (destruct it; [left; reflexivity|left; reflexivity|left; reflexivity|right; eauto]).
  destruct C as [C|(j & cp' & ->)].
  - assert (EX : forall l es, executions cp items = (cp, l) :: es -> executions cp (it :: items) = (cp, it :: l) :: es)
      by (intros l es E; destruct it; try discriminate C; cbn [executions]; now rewrite E).
    destruct (IH cp) as [(H1 & E)|(seg & j & cp' & r & H1 & -> & E)].
    + left. split; [constructor; auto|]. now apply EX.
    + right. exists (it :: seg), j, cp', r. splits; [constructor; auto|reflexivity|]. now apply EX.
  - right. exists [], j, cp', items. splits; [constructor|reflexivity|reflexivity].
Qed.

Lemma start_settled : forall seg, in_order seg -> settled [[]; []; []] 0 seg.
Proof.
  intros seg (H1 & H2). unfold settled. rewrite total_start. splits; auto.
  - left. split; [reflexivity|]. intros [|[|[|[|i]]]]; reflexivity.
  - now apply passes_extents.
Qed.

Lemma nonpads_app : forall a b, nonpads (a ++ b) = (nonpads a + nonpads b)%nat.
Proof. intros. unfold nonpads. now rewrite filter_app, app_length. Qed.

Lemma run_executions : forall pick (ok : list oline -> Prop), heap_front pick -> forall N items fuel k free cp, (length items <= N)%nat ->
  (nonpads items + 1 <= fuel)%nat ->
  Forall in_order (removelast (map snd (executions cp items))) ->
  (forall cp0 seg P, In (cp0, seg) (executions cp items) ->
    (extents_nonempty seg -> extents_sorted seg -> displaced 2 (passes seg) -> chronological P) -> ok P) ->
  exists ls, a_run pick fuel k items free [[]; []; []] 0 cp = Some ls /\ by_execution ok (executions cp items) ls.
Proof.
  intros pick ok Hp. induction N as [|N IH]; intros items fuel k free cp HN Hfu HO HK;
    (destruct (executions_split items cp) as [(H1 & E)|(seg & j & cp' & r & H1 & -> & E)];
     [destruct (run_last pick Hp fuel k items free [[]; []; []] 0 cp H1 flushed_start ltac:(lia) Hfu) as (P & ER & PP & PC);
      exists P; split; [exact ER|]; rewrite E in *; cbn [by_execution]; split; [exact PP|];
      apply (HK cp items); [now left|]; intros; apply (PC []); apply start_in_time; auto; now apply passes_extents|]).
  - rewrite app_length in HN. cbn [length] in HN. lia.
  - rewrite E in *. cbn [map snd] in HO. destruct (executions_cons r cp') as (l & es & EE).
    assert (HO1 : in_order seg /\ Forall in_order (removelast (map snd (executions cp' r)))).
    { rewrite EE in *. cbn [map snd] in *. change (removelast (seg :: l :: map snd es)) with (seg :: removelast (l :: map snd es)) in HO. now inversion HO. }
    destruct HO1 as [HO1 HO2]. rewrite nonpads_app in Hfu. unfold nonpads in Hfu at 2. cbn [filter is_pad negb length] in Hfu. fold (nonpads r) in Hfu.
    destruct (run_then pick j cp' r Hp fuel (nonpads r + 1) k seg free [[]; []; []] 0 cp H1 flushed_start ltac:(lia) ltac:(lia) (start_settled _ HO1))
      as (P & fuel' & k' & free' & HF & ER & PP & PC).
    rewrite app_length in HN. cbn [length] in HN.
    destruct (IH r fuel' k' free' cp' ltac:(lia) HF HO2) as (ls & ER2 & HB).
    { intros cp0 seg0 P0 Hin. apply (HK cp0). now right. }
    exists (P ++ LNewExecution :: ls). rewrite ER, run_checkpoint, ER2. split; [reflexivity|].
    rewrite EE in *. cbn [by_execution]. exists P, ls. splits; auto.
    apply (HK cp seg); [now left|]. intros. apply (PC []). apply start_in_time; auto. now apply passes_extents.
Qed.

Theorem C22_by_execution_partial : forall conv pick d junk cp items, heap_front pick -> file_ok conv (ICheckpoint junk cp :: items) ->
  Forall in_order (removelast (map snd (executions cp items))) ->
  exists d1 d2 evs,
    d_open_file d (file_bytes (ICheckpoint junk cp :: items)) = Some (d1, true) /\
    decompressTo conv pick d1 = Some (d2, evs, zlen (messages (map line_of evs))) /\
    by_execution (fun _ => True) (executions cp items) (map line_of evs) /\ d_good d2 = true.
Proof.
  intros conv pick d junk cp items Hp Hf HO.
  destruct (run_executions pick (fun _ => True) Hp (length items) items (nonpads items + 1) 0 (map bf_ts (d_free d)) cp (le_n _) (le_n _) HO (fun _ _ _ _ _ => I)) as (P & ER & HB).
  destruct (ordered_file conv pick d junk cp items [] P Hp Hf (or_introl eq_refl) ER) as (d1 & d2 & evs & F1 & F2 & F3 & F4).
  rewrite app_nil_r in F1. exists d1, d2, evs. rewrite F3. splits; auto.
Qed.
Print Assumptions C22_by_execution_partial.

(** The same, each execution in time order. *)
Theorem C22_chronological_partial : forall conv pick d junk cp items, heap_front pick -> file_ok conv (ICheckpoint junk cp :: items) ->
  Forall in_order (removelast (map snd (executions cp items))) ->
  extents_nonempty items -> extents_sorted items -> Forall (fun e => displaced 2 (passes (snd e))) (executions cp items) ->
  exists d1 d2 evs,
    d_open_file d (file_bytes (ICheckpoint junk cp :: items)) = Some (d1, true) /\
    decompressTo conv pick d1 = Some (d2, evs, zlen (messages (map line_of evs))) /\
    by_execution chronological (executions cp items) (map line_of evs) /\ d_good d2 = true.
Proof.
  intros conv pick d junk cp items Hp Hf HO HN HS HD.
  assert (SUB : forall l c c0 seg it, In (c0, seg) (executions c l) -> In it seg -> In it l).
  { intros l. induction l as [|it l IH]; intros c c0 seg x Hin Hx.
    - destruct Hin as [E|[]]. injection E as <- <-. contradiction.
    - destruct (executions_cons l c) as (l0 & es & E).
      destruct it; cbn [executions] in Hin; try (rewrite E in Hin; destruct Hin as [X|Hin];
        [injection X as <- <-; destruct Hx as [->|Hx]; [now left|right; apply (IH c c l0); [rewrite E; now left|exact Hx]]|right; apply (IH c c0 seg); [rewrite E; now right|exact Hx]]).
      destruct Hin as [X|Hin]; [injection X as <- <-; contradiction|right; eapply IH; eauto]. }
  destruct (run_executions pick chronological Hp (length items) items (nonpads items + 1) 0 (map bf_ts (d_free d)) cp (le_n _) (le_n _) HO) as (P & ER & HB).
  { intros cp0 seg P Hin HC. apply HC.
    - intros tid np ms Hi. eapply HN. eapply SUB; eauto.
    - intros tid np ms Hi. eapply HS. eapply SUB; eauto.
    - rewrite Forall_forall in HD. apply (HD _ Hin). }
  destruct (ordered_file conv pick d junk cp items [] P Hp Hf (or_introl eq_refl) ER) as (d1 & d2 & evs & F1 & F2 & F3 & F4).
  rewrite app_nil_r in F1. exists d1, d2, evs. rewrite F3. splits; auto.
Qed.
Print Assumptions C22_chronological_partial.

(** ** What does not *)
(** A heap: the first of the smallest keys. *)
Fixpoint first_min (best : option (nat * Z)) (i : nat) (keys : list Z) : nat :=
  match keys with
  | [] => match best with Some (j, _) => j | None => O end
  | x :: r => first_min (match best with Some (j, y) => if y <=? x then Some (j, y) else Some (i, x) | None => Some (i, x) end) (S i) r
  end.
Definition pick_first (k i : nat) (keys : list Z) : nat := first_min None 0 keys.

Lemma first_min_spec : forall keys pre best,
  (match best with None => pre = [] | Some (j, y) => nth_error pre j = Some y /\ Forall (fun z => y <= z) pre end) -> pre ++ keys <> [] ->
  exists x, nth_error (pre ++ keys) (first_min best (length pre) keys) = Some x /\ Forall (fun z => x <= z) (pre ++ keys).
Proof.
  induction keys as [|x r IH]; intros pre best H HN; cbn [first_min].
  - rewrite app_nil_r in *. destruct best as [[j y]|]; [|contradiction]. exists y. exact H.
  - replace (S (length pre)) with (length (pre ++ [x])) by (rewrite app_length; cbn [length]; lia).
    replace (pre ++ x :: r) with ((pre ++ [x]) ++ r) by (rewrite <- app_assoc; reflexivity). apply IH.
    2:{ destruct pre; discriminate. }
    destruct best as [[j y]|].
    + destruct H as [H1 H2]. destruct (y <=? x) eqn:E; split.
      * apply Z.leb_le in E. rewrite nth_error_app1; auto. apply nth_error_Some. congruence.
      * apply Forall_app. split; [exact H2|]. constructor; [lia|constructor].
      * rewrite nth_error_app2 by lia. now rewrite Nat.sub_diag.
      * apply Z.leb_gt in E. apply Forall_app. split; [|constructor; [lia|constructor]]. eapply Forall_impl; [|exact H2]. cbn. intros. lia.
    + subst pre. split; [reflexivity|]. constructor; [lia|constructor].
Qed.

Lemma pick_first_heap : heap_front pick_first.
Proof. intros k i keys H. apply (first_min_spec keys [] None); [reflexivity|exact H]. Qed.

Definition run_ordered (items : list item) : option (list oline) :=
  match d_open_file new_decoder (file_bytes items) with
  | Some (d1, true) => option_map (fun r => map line_of (snd (fst r))) (decompressTo Prop_Message.show pick_first d1)
  | _ => None
  end.

Lemma run_ordered_inv : forall items ls d1 d2 evs n, run_ordered items = Some ls -> d_open_file new_decoder (file_bytes items) = Some (d1, true) ->
  decompressTo Prop_Message.show pick_first d1 = Some (d2, evs, n) -> map line_of evs = ls.
Proof. intros items ls d1 d2 evs n R E1 E2. unfold run_ordered in R. rewrite E1, E2 in R. now injection R. Qed.

(** One statement, one thread per extent. *)
Definition pass (id line ts : Z) : item := IExtent 3 true [fmsg_n id ts 11 line].
Definition shown_n (cp ts line : Z) : oline := LMsg (Shown (demo_cp cp) 0 ts 3 (chars "a.cc") line 2 (chars "n=" ++ [11])).

Lemma ok_cp : forall known j t, 0 <= j < 64 -> 0 <= t < 100 -> item_ok Prop_Message.show known (ICheckpoint j (demo_cp t)).
Proof.
  intros known j t H1 H2. cbn [item_ok demo_cp cp_rdtsc cp_unixTime cp_cps]. splits; try lia; try reflexivity.
  repeat (constructor; [unfold is_byte; lia|]). constructor.
Qed.

Lemma ok_dict : forall known l, 0 <= l < 10 -> item_ok Prop_Message.show known (IDict 1 [fsite l]).
Proof.
  intros known l H. cbn [item_ok]. splits; try lia.
  - constructor; [|constructor]. unfold site_ok, fsite. cbn [si_severity si_line si_file si_fmt]. splits; try lia; try (vm_compute; reflexivity);
    repeat (constructor; [unfold nonzero_byte; vm_compute; split; reflexivity|]); constructor.
  - rewrite dict_bytes_zlen. cbn [map concat]. rewrite app_nil_r, dict_entry_size. vm_compute. reflexivity.
Qed.

Ltac ok_msgs := repeat (constructor; [apply fmsg_n_ok; lia || reflexivity || (vm_compute; reflexivity)|]); constructor.
Ltac ok_extent := cbn [item_ok]; split; [lia|split; [apply Z.leb_le; vm_compute; reflexivity|ok_msgs]].

Lemma passes_file_ok : forall (its : list item), items_ok Prop_Message.show [fsite 7] its ->
  file_ok Prop_Message.show (ICheckpoint 5 (demo_cp 10) :: IDict 1 [fsite 7] :: its).
Proof.
  intros its H. unfold file_ok. cbn [items_ok knows app]. split; [apply ok_cp; lia|]. split; [apply ok_dict; lia|exact H].
Qed.

Ltac demo_extents := cbn [items_ok knows app]; repeat (split; [first [apply ok_cp; lia | apply ok_dict; lia | ok_extent | cbn [item_ok]; repeat (constructor; [split; [unfold is_byte; lia|reflexivity]|]); constructor]|]); try exact I.

(** The second pass is earlier than the first: both are printed together.  When
    the next execution starts, the first stage is empty and the third pass is
    still buffered; it is printed with the statement and the clock of the second
    execution. *)
Definition mixed_items : list item :=
  [IDict 1 [fsite 7]; pass 0 7 10; pass 0 7 5; pass 0 7 20; ICheckpoint 0 (demo_cp 20); IDict 1 [fsite 9]; pass 0 9 30].
Definition mixed : list item := ICheckpoint 5 (demo_cp 10) :: mixed_items.

Lemma mixed_ok : file_ok Prop_Message.show mixed.
Proof. apply passes_file_ok. unfold pass. demo_extents. Qed.

Lemma mixed_run : run_ordered mixed = Some [shown_n 10 5 7; shown_n 10 10 7; LNewExecution; shown_n 20 20 9; shown_n 20 30 9].
Proof. vm_compute. reflexivity. Qed.

Lemma sum_perm_z : forall l1 l2, Permutation l1 l2 -> fold_right Z.add 0 l1 = fold_right Z.add 0 l2.
Proof. induction 1; cbn [fold_right]; lia. Qed.

Theorem C20_refuted_mixed : ~ ordered_complete.
Proof.
  intro H. destruct (H Prop_Message.show pick_first new_decoder mixed pick_first_heap mixed_ok) as (d1 & d2 & evs & n & E1 & E2 & P).
  pose proof (run_ordered_inv _ _ _ _ _ _ mixed_run E1 E2) as R. rewrite R in P.
  assert (S : fold_right Z.add 0 (map sh_line (messages (lines_of mixed))) = 30) by (vm_compute; reflexivity).
  rewrite <- (sum_perm_z _ _ (Permutation_map sh_line P)) in S.
  vm_compute in S. discriminate S.
Qed.
Print Assumptions C20_refuted_mixed.

Theorem C22_refuted_mixed : ~ ordered_by_execution.
Proof.
  intro H. destruct (H Prop_Message.show pick_first new_decoder 5 (demo_cp 10) mixed_items pick_first_heap mixed_ok) as (d1 & d2 & evs & n & E1 & E2 & B).
  pose proof (run_ordered_inv mixed _ _ _ _ _ mixed_run E1 E2) as R. rewrite R in B.
  destruct B as (a & b & E & P & _). apply Permutation_length in P. change (length (file_lines (demo_cp 10) _)) with 3%nat in P.
  destruct a as [|x [|y [|z [|]]]]; try discriminate P. cbn [app] in E. injection E as _ _ _ E _. discriminate E.
Qed.
Print Assumptions C22_refuted_mixed.

(** Three passes are buffered, but a pass that is exhausted early makes the
    decompressor print the next one before the third after it is read. *)
Definition late : list item := [ICheckpoint 5 (demo_cp 10); IDict 1 [fsite 7]; pass 0 7 10; pass 0 7 5; pass 0 7 30; pass 0 7 40; pass 0 7 20].

Lemma pass_sorted : forall id line t, StronglySorted (fun x y => w_ts (fm_w x) <= w_ts (fm_w y)) [fmsg_n id t 11 line].
Proof. intros. constructor; constructor. Qed.

Ltac sorted_extents := intros tid np ms Hin; repeat (destruct Hin as [Hin|Hin]; [first [discriminate Hin | injection Hin as _ _ <-; first [apply pass_sorted | constructor]]|]); contradiction.
Ltac few_passes := intros i j x y Hij Hx Hy; cbn in Hx, Hy;
  do 9 (try destruct i as [|i]); do 9 (try destruct j as [|j]); try lia; cbn in Hx, Hy; try contradiction;
  repeat (destruct Hx as [<-|Hx]; [|try contradiction]); repeat (destruct Hy as [<-|Hy]; [|try contradiction]); cbn; lia.

Theorem C21_refuted_late : ~ ordered_chronological 3.
Proof.
  intro H. destruct (H Prop_Message.show pick_first late pick_first_heap) as (d1 & d2 & evs & n & E1 & E2 & C).
  - apply passes_file_ok. unfold pass. demo_extents.
  - repeat constructor.
  - sorted_extents.
  - few_passes.
  - assert (R : run_ordered late = Some [shown_n 10 5 7; shown_n 10 10 7; shown_n 10 30 7; shown_n 10 20 7; shown_n 10 40 7]) by (vm_compute; reflexivity).
    rewrite (run_ordered_inv _ _ _ _ _ _ R E1 E2) in C.
    unfold chronological in C. cbn in C. inversion C as [|? ? C1 _]; subst. inversion C1 as [|? ? C2 _]; subst. inversion C2 as [|? ? _ C3]; subst. inversion C3; subst. lia.
Qed.
Print Assumptions C21_refuted_late.

(** A pass without messages can have the same effect when messages are displaced by
    less than two passes. *)
Definition hollow : list item := [ICheckpoint 5 (demo_cp 10); IDict 1 [fsite 7]; pass 0 7 10; pass 0 7 5; pass 0 7 20; pass 0 7 15;
  IExtent 3 true []; pass 0 7 30; pass 0 7 25].

Theorem C21_refuted_hollow : ~ ordered_chronological 2.
Proof.
  intro H. destruct (H Prop_Message.show pick_first hollow pick_first_heap) as (d1 & d2 & evs & n & E1 & E2 & C).
  - apply passes_file_ok. unfold pass. demo_extents.
  - repeat constructor.
  - sorted_extents.
  - few_passes.
  - assert (R : run_ordered hollow = Some [shown_n 10 5 7; shown_n 10 10 7; shown_n 10 15 7; shown_n 10 20 7; shown_n 10 30 7; shown_n 10 25 7]) by (vm_compute; reflexivity).
    rewrite (run_ordered_inv _ _ _ _ _ _ R E1 E2) in C.
    unfold chronological in C. cbn in C. inversion C as [|? ? C1 _]; subst. inversion C1 as [|? ? C2 _]; subst. inversion C2 as [|? ? C3 _]; subst. inversion C3 as [|? ? C4 _]; subst. inversion C4 as [|? ? _ C5]; subst. inversion C5; subst. lia.
Qed.
Print Assumptions C21_refuted_hollow.

(** ** Instances *)
(** Passes out of order, an empty extent, two threads. *)
Definition shuffled : list item :=
  [IDict 1 [fsite 7]; IExtent 3 false [fmsg_n 0 10 11 7; fmsg_n 0 40 11 7]; IExtent 4 true [fmsg_n 0 30 12 7]; IPad [0; 4]; IExtent 4 false []; pass 0 7 5; pass 0 7 41; pass 0 7 40; pass 0 7 50].

Lemma shuffled_ok : file_ok Prop_Message.show (ICheckpoint 5 (demo_cp 10) :: shuffled).
Proof.
  apply passes_file_ok. unfold pass. demo_extents.
Qed.

Example C20_instance : file_ok Prop_Message.show (ICheckpoint 5 (demo_cp 10) :: shuffled) /\ one_execution shuffled /\ heap_front pick_first /\
  option_map (fun ls => map sh_ts (messages ls)) (run_ordered (ICheckpoint 5 (demo_cp 10) :: shuffled)) = Some [5; 10; 30; 40; 40; 41; 50].
Proof. split; [exact shuffled_ok|]. split; [repeat constructor|]. split; [exact pick_first_heap|]. vm_compute. reflexivity. Qed.

Example C21_instance : extents_sorted shuffled /\ displaced 2 (passes shuffled) /\ passes_nonempty (passes shuffled) /\
  ~ displaced 1 (passes shuffled) /\ map (fun m => w_ts (fm_w m)) (flat_map item_msgs shuffled) = [10; 40; 30; 5; 41; 40; 50].
Proof.
  splits.
  - intros tid np ms Hin. unfold shuffled, pass in Hin.
    repeat (destruct Hin as [Hin|Hin]; [first [discriminate Hin | injection Hin as _ _ <-; repeat (constructor; cbn; try lia)]|]). contradiction.
  - few_passes.
  - repeat constructor; discriminate.
  - intro H. specialize (H 0%nat 1%nat (fmsg_n 0 40 11 7) (fmsg_n 0 5 11 7) ltac:(lia)). cbn in H. specialize (H ltac:(auto) ltac:(auto)). lia.
  - reflexivity.
Qed.

(** Two executions in order, the second with an earlier clock. *)
Definition two_runs : list item :=
  [IDict 1 [fsite 7]; pass 0 7 10; pass 0 7 15; pass 0 7 20; pass 0 7 25; ICheckpoint 0 (demo_cp 20); IDict 1 [fsite 9]; pass 0 9 3; pass 0 9 2].

Example C22_instance : file_ok Prop_Message.show (ICheckpoint 5 (demo_cp 10) :: two_runs) /\
  Forall in_order (removelast (map snd (executions (demo_cp 10) two_runs))) /\
  run_ordered (ICheckpoint 5 (demo_cp 10) :: two_runs) =
    Some [shown_n 10 10 7; shown_n 10 15 7; shown_n 10 20 7; shown_n 10 25 7; LNewExecution; shown_n 20 2 9; shown_n 20 3 9].
Proof.
  split; [apply passes_file_ok; unfold pass; demo_extents|]. split; [|vm_compute; reflexivity].
  constructor; [|constructor]. split.
  - intros tid np ms Hin. cbn [snd executions two_runs] in Hin. unfold pass in Hin.
    repeat (destruct Hin as [Hin|Hin]; [first [discriminate Hin | injection Hin as _ _ <-; discriminate]|]). contradiction.
  - few_passes.
Qed.
