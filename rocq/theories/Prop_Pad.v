(** C40: padding. *)
From Verif Require Import Base BaseProofs Packer PackerProofs LogHeader Chars Fmt MicroCode Args Printf Decode DecodeProofs Encoder Wire EncoderProofs
  Decoder FileSpec DecoderProofs Prop_Decoder Pad.

(** C40 as claimed: a file whose blocks were written with direct I/O shows the
    messages that were encoded.  [blocks]: for each block the items in it, the
    memory, and the address of the buffer. *)
Record block := Block { bk_items : list item; bk_mem : mem; bk_buf : Z }.

Definition encoded (b : block) : Prop :=
  load (bk_mem b) (bk_buf b) (length (file_bytes (bk_items b))) = file_bytes (bk_items b).

Definition on_disk (direct : bool) (bs : list block) : list Z :=
  concat (map (fun b => block_written direct (bk_mem b) (bk_buf b) (zlen (file_bytes (bk_items b)))) bs).

Definition all_items (bs : list block) : list item := concat (map bk_items bs).

(** The file is read completely and shows exactly [ls]. *)
Definition reads_as (conv : rconv -> list Z) (d : decoder) (content : list Z) (ls : list oline) : Prop :=
  exists d1 d2 evs, d_open_file d content = Some (d1, true) /\
    decompressUnordered conv d1 = Some (d2, evs, zlen (messages ls)) /\ map line_of evs = ls /\ d_good d2 = true.

Definition C40_full : Prop := forall conv d bs, Forall encoded bs -> file_ok conv (all_items bs) ->
  reads_as conv d (on_disk true bs) (lines_of (all_items bs)).

(** ** What holds *)
Lemma file_bytes_concat : forall bs, file_bytes (all_items bs) = concat (map (fun b => file_bytes (bk_items b)) bs).
Proof.
  induction bs as [|b bs IH]; [reflexivity|]. unfold all_items in *. cbn [map concat]. rewrite <- IH.
  unfold file_bytes. now rewrite map_app, concat_app.
Qed.

(** Without direct I/O, and if every block happens to have a multiple of 512
    bytes, the blocks are written as encoded. *)
Theorem C40_partial : forall conv d direct bs, Forall encoded bs -> file_ok conv (all_items bs) ->
  direct = false \/ Forall (fun b => zlen (file_bytes (bk_items b)) mod 512 = 0) bs ->
  reads_as conv d (on_disk direct bs) (lines_of (all_items bs)).
Proof.
  intros conv d direct bs He Hf Hd.
  assert (E : on_disk direct bs = file_bytes (all_items bs)).
  { rewrite file_bytes_concat. unfold on_disk. f_equal. clear Hf. induction bs as [|b bs IH]; [reflexivity|].
    inversion He as [|? ? H1 H2]; subst. cbn [map].
    rewrite IH; [|auto|destruct Hd as [->|Hd]; [auto|right; now inversion Hd]].
    f_equal. unfold block_written, pad_block.
    pose proof (zlen_nonneg _ (file_bytes (bk_items b))).
    assert (Q : direct && negb (Z.rem (zlen (file_bytes (bk_items b))) 512 =? 0) = false).
    { destruct Hd as [->|Hd]; [reflexivity|]. inversion Hd; subst. rewrite Z.rem_mod_nonneg by lia.
      replace (zlen (file_bytes (bk_items b)) mod 512) with 0 by auto. apply andb_false_r. }
    rewrite Q. unfold zlen. rewrite Nat2Z.id. exact H1. }
  rewrite E. destruct (C18_unordered_complete conv d _ Hf) as (d1 & d2 & evs & H). exists d1, d2, evs. exact H.
Qed.
Print Assumptions C40_partial.

(** The bytes that would pad the blocks rightly are skipped: any padding of zeros
    behind each of the blocks. *)
Definition padded (bs : list (list item * nat)) : list Z :=
  concat (map (fun b => file_bytes (fst b) ++ repeat 0 (snd b)) bs).

Definition pads (bs : list (list item * nat)) : list item :=
  concat (map (fun b => fst b ++ [IPad (repeat 0 (snd b))]) bs).

Lemma knows_app : forall conv a b known, items_ok conv known (a ++ b) <-> items_ok conv known a /\ items_ok conv (knows_all known a) b.
Proof.
  intros conv a. induction a as [|x a IH]; intros b known; cbn [app items_ok]; [unfold knows_all; cbn; tauto|].
  rewrite IH. unfold knows_all. cbn [fold_left]. tauto.
Qed.

Lemma lines_split : forall a cp, exists cp', forall b, file_lines cp (a ++ b) = file_lines cp a ++ file_lines cp' b.
Proof.
  induction a as [|x a IHa]; intro cp; cbn [app file_lines]; [exists cp; auto|].
  destruct x; cbn [file_lines]; auto.
  - destruct (IHa cp) as (cp' & E). exists cp'. intro b. rewrite E. now rewrite app_assoc.
  - destruct (IHa cp0) as (cp' & E). exists cp'. intro b. rewrite E. reflexivity.
Qed.

Lemma lines_pads : forall bs cp, file_lines cp (pads bs) = file_lines cp (concat (map fst bs)).
Proof.
  induction bs as [|[its n] bs IH]; intro cp; [reflexivity|]. unfold pads in *. cbn [map concat fst snd].
  rewrite <- app_assoc. cbn [app]. destruct (lines_split its cp) as (c1 & E1). rewrite !E1. cbn [file_lines]. now rewrite IH.
Qed.

Lemma zeros_pad : forall n, Forall (fun b => is_byte b /\ b mod 4 = 0) (repeat 0 n).
Proof. intro n. apply Forall_forall. intros x H. apply repeat_spec in H. subst. unfold is_byte. split; [lia|reflexivity]. Qed.

Lemma pads_ok : forall conv bs known, items_ok conv known (concat (map fst bs)) -> items_ok conv known (pads bs).
Proof.
  intros conv bs. induction bs as [|[its n] bs IH]; intros known H; [exact I|]. unfold pads in *. cbn [map concat fst snd] in *.
  rewrite <- app_assoc. cbn [app]. apply knows_app in H. destruct H as [H1 H2]. apply knows_app. split; auto. cbn [items_ok knows]. split.
  - apply zeros_pad.
  - apply IH. exact H2.
Qed.

Lemma pads_bytes : forall bs, file_bytes (pads bs) = padded bs.
Proof.
  induction bs as [|[its n] bs IH]; [reflexivity|]. unfold pads, padded in *. cbn [map concat fst snd]. rewrite <- IH.
  unfold file_bytes. rewrite !map_app, !concat_app. cbn [map concat item_bytes]. rewrite app_nil_r, <- !app_assoc. reflexivity.
Qed.

Theorem C40_zeros_skipped : forall conv d bs, file_ok conv (concat (map fst bs)) ->
  (match bs with (_ :: _, _) :: _ => True | _ => False end) ->
  reads_as conv d (padded bs) (lines_of (concat (map fst bs))).
Proof.
  intros conv d bs Hf Hb. destruct bs as [|[[|it its] n] bs]; try contradiction Hb.
  assert (OK : file_ok conv (pads ((it :: its, n) :: bs)) /\
               lines_of (pads ((it :: its, n) :: bs)) = lines_of (concat (map fst ((it :: its, n) :: bs)))).
  { pose proof (pads_ok conv ((it :: its, n) :: bs) []) as P. pose proof (lines_pads ((it :: its, n) :: bs)) as L.
    destruct it; try contradiction Hf. split.
    - apply P. exact Hf.
    - specialize (L cp). unfold pads in *. cbn [map concat fst snd app lines_of file_lines] in *.
      specialize (L). congruence. }
  destruct OK as [F E]. rewrite <- E, <- pads_bytes.
  destruct (C18_unordered_complete conv d _ F) as (d1 & d2 & evs & H). exists d1, d2, evs. exact H.
Qed.
Print Assumptions C40_zeros_skipped.

(** ** What the code writes *)

(** A padded block: zeros over its beginning, and behind its end what was in the
    buffer before. *)
Theorem C40_what : forall m buf bs leftover,
  let n := zlen bs in let pad := 512 - n mod 512 in
  load m buf (length (bs ++ leftover)) = bs ++ leftover -> n mod 512 <> 0 -> zlen leftover = pad ->
  block_written true m buf n = repeat 0 (Z.to_nat pad) ++ skipn (Z.to_nat pad) (bs ++ leftover) /\
  zlen (block_written true m buf n) mod 512 = 0.
Proof.
  intros m buf bs leftover n pad HL Hn Hl. pose proof (zlen_nonneg _ bs) as N0. fold n in N0.
  assert (HP : 0 < pad < 512) by (unfold pad; lia).
  unfold block_written, pad_block. rewrite Z.rem_mod_nonneg by lia. replace (n mod 512 =? 0) with false by lia.
  cbn [andb negb]. fold pad. replace (n + 512 - n mod 512) with (zlen (bs ++ leftover)) by (rewrite zlen_app; fold n; lia).
  set (z := repeat 0 (Z.to_nat pad)). assert (Z1 : zlen z = pad) by (unfold z, zlen; rewrite repeat_length; lia).
  assert (E : load (store m buf z) buf (Z.to_nat (zlen (bs ++ leftover))) = z ++ skipn (Z.to_nat pad) (bs ++ leftover)).
  { unfold zlen. rewrite Nat2Z.id.
    rewrite <- (firstn_skipn (Z.to_nat pad) (bs ++ leftover)) in HL at 2.
    assert (LF : length (firstn (Z.to_nat pad) (bs ++ leftover)) = length z).
    { unfold z. rewrite repeat_length. apply firstn_length_le. rewrite app_length. unfold zlen in *. lia. }
    pose proof HL as HL'. apply load_split in HL. destruct HL as [_ HL].
    rewrite <- (firstn_skipn (Z.to_nat pad) (bs ++ leftover)) at 1. rewrite app_length, LF, load_app, load_store_same. f_equal.
    unfold zlen in HL. rewrite LF in HL. rewrite load_store_disjoint; [exact HL|]. unfold zlen. lia. }
  rewrite E. split; [reflexivity|].
  assert (ZE : zlen (z ++ skipn (Z.to_nat pad) (bs ++ leftover)) = n + pad).
  { rewrite zlen_app, Z1. unfold zlen at 1. rewrite skipn_length, app_length. unfold zlen in *. lia. }
  rewrite ZE. unfold pad. lia.
Qed.
Print Assumptions C40_what.

(** The block stays in its buffer: its size is a multiple of 512. *)
Theorem C40_in_buffer : forall direct m buf n size, 0 <= n <= size -> size mod 512 = 0 ->
  n <= snd (pad_block direct m buf n) <= size /\
  forall a, a < buf \/ buf + size <= a -> fst (pad_block direct m buf n) a = m a.
Proof.
  intros direct m buf n size Hn Hs. unfold pad_block. rewrite Z.rem_mod_nonneg by lia.
  destruct (direct && negb (n mod 512 =? 0)) eqn:E; cbn [fst snd]; [|split; [lia|auto]].
  rewrite andb_true_iff, negb_true_iff in E. split; [lia|]. intros a Ha. apply store_outside. unfold zlen. rewrite repeat_length. lia.
Qed.
Print Assumptions C40_in_buffer.

(** A file whose first block was padded cannot be opened: an assertion fails. *)
Theorem C40_first_block_lost : forall d b bs, zlen (file_bytes (bk_items b)) mod 512 <> 0 ->
  d_open_file d (on_disk true (b :: bs)) = None.
Proof.
  intros d b bs Hn. set (bytes := file_bytes (bk_items b)) in *. set (m := bk_mem b). set (p := bk_buf b).
  pose proof (zlen_nonneg _ bytes). unfold on_disk. cbn [map concat]. fold bytes m p.
  unfold block_written, pad_block. rewrite Z.rem_mod_nonneg by lia. replace (zlen bytes mod 512 =? 0) with false by lia. cbn [andb negb].
  set (pad := 512 - zlen bytes mod 512). assert (0 < pad < 512) by (unfold pad; lia).
  assert (Q : exists k r, Z.to_nat (zlen bytes + 512 - zlen bytes mod 512) = S (32 + k) /\ (32 + k = r)%nat).
  { exists (Z.to_nat (zlen bytes + 512 - zlen bytes mod 512 - 33)). eexists. split; [|reflexivity]. lia. }
  destruct Q as (k & r & -> & _).
  set (m' := store m p (repeat 0 (Z.to_nat pad))).
  assert (M0 : m' p = 0).
  { unfold m'. rewrite store_inside by (unfold zlen; rewrite repeat_length; lia). apply nth_repeat. }
  change (load m' p (S (32 + k))) with (m' p :: load m' (p + 1) (32 + k)). rewrite M0, load_app. cbn [app].
  set (rest := concat (map _ bs)). set (x := load m' (p + 1) 32).
  set (y := load m' (p + 1 + Z.of_nat 32) k).
  unfold d_open_file, readDictionary, fread. cbn [f_rest f_eof]. change (Z.to_nat 33) with (S 32).
  rewrite <- app_assoc. change (firstn (S 32) (0 :: x ++ y ++ rest)) with (0 :: firstn 32 (x ++ y ++ rest)).
  assert (X : firstn 32 (x ++ y ++ rest) = x).
  { replace 32%nat with (length x) by (unfold x; now rewrite load_length). apply firstn_app_exact. }
  rewrite X, zlen_cons. replace (zlen x) with 32 by (unfold x; now rewrite load_zlen).
  change (1 + 32 <? 33) with false. cbv iota. cbn [nth]. change (entryType 0 =? ET_CHECKPOINT) with false. reflexivity.
Qed.
Print Assumptions C40_first_block_lost.

Definition cp_demo := Checkpoint 1000 1700000000 [0; 0; 0; 0; 0; 0; 240; 65].
Definition block_demo := Block [ICheckpoint 0 cp_demo] (bmem (item_bytes (ICheckpoint 0 cp_demo))) 0.

Theorem C40_refuted : ~ C40_full.
Proof.
  intro F. destruct (F (fun _ => []) new_decoder [block_demo]) as (d1 & d2 & evs & H & _).
  - constructor; [reflexivity|constructor].
  - cbn. splits; auto; try lia. repeat constructor; unfold is_byte; lia.
  - rewrite C40_first_block_lost in H; [discriminate H|]. vm_compute. discriminate.
Qed.
Print Assumptions C40_refuted.


(** A later block that was padded: here the messages in it disappear without a
    trace.  The first block has 512 bytes. *)
Definition block1_items := [ICheckpoint 5 (demo_cp 10); IDict 1 [fsite 7]; IExtent 3 true [fmsg_n 0 1000 11 7]; IPad (repeat 0 441)].
Definition block2_items := [IExtent 3 false [fmsg_n 0 2000 12 7]; IExtent 4 false [fmsg_n 0 2100 13 7]].
Definition in_buffer (its : list item) := Block its (bmem (file_bytes its)) 0.

Example C40_messages_lost :
  zlen (file_bytes block1_items) = 512 /\
  map line_of (match d_open_file new_decoder (on_disk true [in_buffer block1_items; in_buffer block2_items]) with
               | Some (d, _) => match decompressUnordered Prop_Message.show d with Some (_, evs, _) => evs | None => [] end
               | None => [] end)
  = lines_of block1_items /\
  zlen (lines_of block1_items) = 1 /\ zlen (lines_of (block1_items ++ block2_items)) = 3.
Proof. splits; vm_compute; reflexivity. Qed.

Example C40_zeros_example : forall a b, exists d1 d2 evs,
  d_open_file new_decoder (padded [(firstn 7 demo_items, a); (skipn 7 demo_items, b)]) = Some (d1, true) /\
  decompressUnordered Prop_Message.show d1 = Some (d2, evs, 4) /\ map line_of evs = demo_lines.
Proof.
  intros a b.
  destruct (C40_zeros_skipped Prop_Message.show new_decoder [(firstn 7 demo_items, a); (skipn 7 demo_items, b)] demo_file_ok I)
    as (d1 & d2 & evs & A & B & C & _).
  exists d1, d2, evs. split; [exact A|]. split; [exact B|]. rewrite C. reflexivity.
Qed.
