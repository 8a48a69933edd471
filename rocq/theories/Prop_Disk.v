(** C68: writes that fail or are cut short. *)
From Verif Require Import Base BaseProofs Packer PackerProofs LogHeader Chars Fmt FmtProofs FrontFmt Prop_FrontFmt MicroCode Prop_MicroCode
  Args Printf ArgsProofs Prop_Args Decode DecodeProofs Prop_Message Encoder Wire EncoderProofs Prop_Encoder Decoder FileSpec DecoderProofs
  Prop_Decoder Ordered OrderedProofs OrderSpec OrderTheory Prop_Ordered Prop_Damage Disk.
From Coq Require Import Permutation Sorted.

(** ** Specification *)

(** What the background thread hands to each write, and how it ends. *)
Definition write_bytes (w : list item * outcome) : list Z * outcome := (file_bytes (fst w), snd w).

(** The items of a write that are in the file in full. *)
Definition survive (w : list item * outcome) : list item :=
  match snd w with
  | NotStarted => []
  | WriteError => []
  | Wrote n => whole n (fst w)
  end.
Definition survivors (ws : list (list item * outcome)) : list item := concat (map survive ws).
Definition intended (ws : list (list item * outcome)) : list item := concat (map fst ws).

(** Whatever happens to the writes, every message that is in the file in full is
    printed as it was logged, and nothing else. *)
Definition C68_full : Prop := forall conv d ws, file_ok conv (intended ws) -> file_ok conv (firstn 1 (survivors ws)) ->
  exists d1 d2 evs n,
    d_open_file d (disk (map write_bytes ws) []) = Some (d1, true) /\
    decompressUnordered conv d1 = Some (d2, evs, n) /\
    map line_of evs = lines_of (survivors ws).

(** The part that holds: a write that did not end well lost whole items, and these
    were extents or padding. *)
Definition replaceable (it : item) : Prop := match it with IPad _ => True | IExtent _ _ _ => True | _ => False end.
Definition clean_loss (w : list item * outcome) : Prop :=
  reached_disk (snd w) (file_bytes (fst w)) = file_bytes (survive w) /\
  exists lost, fst w = survive w ++ lost /\ Forall replaceable lost.

(** ** Proof *)
Lemma disk_app : forall ws f, disk ws f = f ++ concat (map (fun '(buf, o) => reached_disk o buf) ws).
Proof.
  induction ws as [|[buf o] ws IH]; intros f; cbn [disk map concat]; [now rewrite app_nil_r|]. now rewrite IH, <- app_assoc.
Qed.

Lemma file_bytes_concat : forall gs, file_bytes (concat gs) = concat (map file_bytes gs).
Proof.
  induction gs as [|g gs IH]; [reflexivity|]. cbn [concat map]. rewrite <- IH. unfold file_bytes. now rewrite map_app, concat_app.
Qed.

Lemma clean_bytes : forall ws, Forall clean_loss ws -> disk (map write_bytes ws) [] = file_bytes (survivors ws).
Proof.
  intros ws H. rewrite disk_app. cbn [app]. unfold survivors. rewrite file_bytes_concat, !map_map.
  f_equal. apply map_ext_in. intros w Hw. rewrite Forall_forall in H. destruct (H _ Hw) as [E _]. unfold write_bytes. exact E.
Qed.

Lemma items_ok_cut : forall conv a known b c, Forall replaceable b -> items_ok conv known (a ++ b ++ c) -> items_ok conv known (a ++ c).
Proof.
  intros conv. induction a as [|it a IH]; intros known b c HB; cbn [app].
  - revert known. induction HB as [|it b HI HB IHB]; intros known H; [exact H|]. cbn [app items_ok] in H. destruct H as [_ H].
    destruct it; try contradiction HI; apply IHB; exact H.
  - cbn [items_ok]. intros [H1 H2]. split; [exact H1|]. now apply (IH _ b).
Qed.

Lemma survivors_ok : forall conv ws pre known, Forall clean_loss ws -> items_ok conv known (pre ++ intended ws) -> items_ok conv known (pre ++ survivors ws).
Proof.
  intros conv. induction ws as [|w ws IH]; intros pre known H HO; [exact HO|].
  unfold intended, survivors in *. cbn [map concat] in *. assert (HW := Forall_inv H). apply Forall_inv_tail in H.
  destruct HW as (_ & lost & E & HL). rewrite E in HO.
  replace (pre ++ (survive w ++ lost) ++ concat (map fst ws)) with ((pre ++ survive w) ++ lost ++ concat (map fst ws)) in HO by (now rewrite <- !app_assoc).
  apply items_ok_cut in HO; auto. apply (IH (pre ++ survive w)) in HO; auto. now rewrite app_assoc.
Qed.

Lemma survivors_file_ok : forall conv ws, Forall clean_loss ws -> file_ok conv (intended ws) -> file_ok conv (survivors ws).
Proof.
  intros conv ws H HO. assert (HS : items_ok conv [] (survivors ws)).
  { apply (survivors_ok conv ws []); auto. unfold file_ok in HO. destruct (intended ws) as [|[] ?]; try contradiction. exact HO. }
  assert (X : exists j cp r, survivors ws = ICheckpoint j cp :: r).
  { clear HS. induction ws as [|w ws IH]; [contradiction HO|]. unfold intended, survivors in *. cbn [map concat] in *.
    assert (HW := Forall_inv H). apply Forall_inv_tail in H. destruct HW as (_ & lost & E & HL). rewrite E in HO.
    destruct (survive w) as [|it s]; cbn [app] in *.
    - destruct lost as [|it lost]; cbn [app] in HO; [now apply IH|]. apply Forall_inv in HL.
      cbn [file_ok] in HO. destruct it; contradiction.
    - cbn [file_ok] in HO. destruct it; try contradiction. eauto. }
  destruct X as (j & cp & r & X). rewrite X in *. exact HS.
Qed.

(** C68, the part that holds.  If what each write lost are whole extents and padding,
    the rest is printed as it was logged, by all three ways to decompress ... *)
Theorem C68_partial : forall conv d ws, file_ok conv (intended ws) -> Forall clean_loss ws ->
  exists d1 d2 evs,
    d_open_file d (disk (map write_bytes ws) []) = Some (d1, true) /\
    decompressUnordered conv d1 = Some (d2, evs, zlen (messages (lines_of (survivors ws)))) /\
    map line_of evs = lines_of (survivors ws).
Proof.
  intros conv d ws HO HC. rewrite (clean_bytes ws HC).
  destruct (C18_unordered_complete conv d _ (survivors_file_ok conv ws HC HO)) as (d1 & d2 & evs & A & B & C & _). eauto 6.
Qed.

Theorem C68_iterate_partial : forall conv d ws, file_ok conv (intended ws) -> Forall clean_loss ws -> bf_more (d_bf d) = false ->
  exists d1 d2 evs,
    d_open_file d (disk (map write_bytes ws) []) = Some (d1, true) /\
    iterate conv (S (length (messages (lines_of (survivors ws))))) d1 = Some (d2, evs, false) /\
    map line_of evs = lines_of (survivors ws).
Proof.
  intros conv d ws HO HC HB. rewrite (clean_bytes ws HC). exact (C19_iterate_complete conv d _ (survivors_file_ok conv ws HC HO) HB).
Qed.


(** ... and whatever happens, what was written before the first such write comes first. *)
Theorem C68_before_partial : forall conv d ws more, file_ok conv (intended ws) ->
  Forall (fun w => reached_disk (snd w) (file_bytes (fst w)) = file_bytes (fst w)) ws ->
  exists d1, d_open_file d (disk (map write_bytes (ws ++ more)) []) = Some (d1, true) /\
    forall d2 evs n, decompressUnordered conv d1 = Some (d2, evs, n) ->
    exists rest, map line_of evs = lines_of (intended ws) ++ rest.
Proof.
  intros conv d ws more HO HC. rewrite map_app, disk_app, map_app, concat_app. cbn [app].
  replace (concat (map (fun '(buf, o) => reached_disk o buf) (map write_bytes ws))) with (file_bytes (intended ws)).
  - apply (C59_unordered conv d (intended ws) _ HO).
  - unfold intended. rewrite file_bytes_concat, !map_map. f_equal. apply map_ext_in. intros w Hw. rewrite Forall_forall in HC.
    symmetry. unfold write_bytes. exact (HC _ Hw).
Qed.

Lemma whole_all : forall items k, (length (file_bytes items) <= k)%nat -> whole k items = items.
Proof.
  induction items as [|it items IH]; intros k H; [reflexivity|]. unfold file_bytes in *. cbn [map concat whole] in *.
  rewrite app_length in H. destruct (_ <=? _)%nat eqn:E; [|apply Nat.leb_gt in E; lia]. f_equal. apply IH. lia.
Qed.

Theorem C68_ordered_partial : forall conv pick d ws j cp items, heap_front pick -> file_ok conv (intended ws) -> Forall clean_loss ws ->
  survivors ws = ICheckpoint j cp :: items -> one_execution items ->
  exists d1 d2 evs,
    d_open_file d (disk (map write_bytes ws) []) = Some (d1, true) /\
    decompressTo conv pick d1 = Some (d2, evs, zlen (messages (map line_of evs))) /\
    Permutation (map line_of evs) (lines_of (survivors ws)).
Proof.
  intros conv pick d ws j cp items HP HO HC E H1. rewrite (clean_bytes ws HC).
  assert (HF := survivors_file_ok conv ws HC HO). rewrite E in *.
  assert (L33 : length (item_bytes (ICheckpoint j cp)) = 33%nat).
  { destruct HF as [(_ & _ & _ & Hl & _) _]. pose proof (checkpoint_zlen j (cp_rdtsc cp) (cp_unixTime cp) (cp_cps cp) Hl) as Z1. cbn [item_bytes]. unfold zlen in Z1. lia. }
  assert (L : length (file_bytes (ICheckpoint j cp :: items)) = (33 + length (file_bytes items))%nat).
  { unfold file_bytes. cbn [map concat]. rewrite app_length. lia. }
  destruct (C20_ordered_complete_partial conv pick d j cp items (33 + length (file_bytes items)) HP HF H1 ltac:(lia)) as (d1 & d2 & evs & A & B & C).
  rewrite firstn_all2 in A by lia. rewrite whole_all in C by lia. exists d1, d2, evs. splits; auto.
Qed.

(** ** Examples *)

(** A write with the statements is lost: the message of the next one (logged in line
    7) is printed as if it had been logged by the statement in line 8. *)
Definition first_write : list item := [ICheckpoint 5 (demo_cp 10)].
Definition lost_write : list item := [IDict 1 [fsite 7]; pass 0 7 10].
Definition next_write : list item := [IDict 1 [fsite 8]; pass 0 7 20].
Definition lost_run : list (list item * outcome) := [(first_write, Wrote 33); (lost_write, WriteError); (next_write, Wrote 1000)].

Definition print_all (bs : list Z) : option (option (list oline)) :=
  option_map (fun p => option_map (fun q => map line_of (snd (fst q))) (decompressUnordered Prop_Message.show (fst p))) (d_open_file new_decoder bs).

Lemma lost_run_ok : file_ok Prop_Message.show (intended lost_run).
Proof. apply passes_file_ok. unfold lost_write, next_write, pass. demo_extents. Qed.

Theorem C68_refuted : ~ C68_full.
Proof.
  intros F. destruct (F Prop_Message.show new_decoder lost_run lost_run_ok) as (d1 & d2 & evs & n & A & B & C).
  - change (firstn 1 (survivors lost_run)) with [ICheckpoint 5 (demo_cp 10)]. unfold file_ok. cbn [items_ok]. split; [apply ok_cp; lia|exact I].
  - assert (R : print_all (disk (map write_bytes lost_run) []) = Some (Some [shown_n 10 20 8])) by (vm_compute; reflexivity).
    unfold print_all in R. rewrite A in R. cbn [option_map fst] in R. rewrite B in R. cbn [option_map fst snd] in R.
    rewrite C in R. vm_compute in R. discriminate R.
Qed.

(** A write is cut short by three bytes: a message that was never logged is printed, the
    three behind it are not. *)
Example C68_short : forall junk, junk = LMsg (Shown (demo_cp 10) 0 62 3 (chars "a.cc") 7 2 (chars "n=" ++ [0])) ->
  print_all (disk (map write_bytes [(first_write, Wrote 33); ([IDict 1 [fsite 7]; pass 0 7 10; pass 0 7 20], Wrote 44);
                                    ([pass 0 7 30; pass 0 7 40; pass 0 7 50], Wrote 30)]) []) =
  Some (Some [shown_n 10 10 7; junk]).
Proof. intros junk ->. vm_compute. reflexivity. Qed.

(** Two lost writes and one cut off behind an extent: the messages of the rest. *)
Definition clean_run : list (list item * outcome) :=
  [(first_write ++ [IDict 1 [fsite 7]; pass 0 7 10], Wrote 100); ([pass 0 7 20], NotStarted);
   ([pass 0 7 30; pass 0 7 40], Wrote 10); ([pass 0 7 50; IPad [0; 0]], WriteError); ([pass 0 7 60], Wrote 10)].

Lemma clean_run_clean : Forall clean_loss clean_run.
Proof.
  repeat (constructor; [split; [vm_compute; reflexivity|]|]); [exists []|exists [pass 0 7 20]|exists [pass 0 7 40]|exists [pass 0 7 50; IPad [0; 0]]|exists []|];
    try (split; [reflexivity|repeat constructor]). constructor.
Qed.

Example C68_instance : file_ok Prop_Message.show (intended clean_run) /\ Forall clean_loss clean_run /\
  lines_of (survivors clean_run) = [shown_n 10 10 7; shown_n 10 30 7; shown_n 10 60 7] /\
  print_all (disk (map write_bytes clean_run) []) = Some (Some [shown_n 10 10 7; shown_n 10 30 7; shown_n 10 60 7]).
Proof.
  split; [|split; [exact clean_run_clean|split; [reflexivity|vm_compute; reflexivity]]].
  apply passes_file_ok. unfold pass. demo_extents.
Qed.

Print Assumptions C68_partial.
Print Assumptions C68_iterate_partial.
Print Assumptions C68_ordered_partial.
Print Assumptions C68_before_partial.
Print Assumptions C68_refuted.
