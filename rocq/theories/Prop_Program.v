(** C64 and C65: the decompressor program. *)
From Coq Require Import QArith Permutation Sorted.
From Verif Require Import Base BaseProofs Packer LogHeader LogHeaderProofs Chars Fmt Preproc PreprocProofs DecodeProofs Printf Encoder Wire Prop_Encoder Decoder FileSpec DecoderProofs Prop_Decoder
  Ordered OrderedProofs OrderSpec OrderTheory Prop_Ordered RingProofs LineFmt LineProofs Prop_Line Decode Program.
Open Scope Z_scope.

(** ** C64 *)

(** The last line of the output. *)
Definition last_line (n : Z) : list Z :=
  [13; 10; 13; 10] ++ chars "# Decompression Complete after printing " ++ dec_str n ++ chars " log messages" ++ [13; 10].

(** Each line has a text: its time and severity can be printed. *)
Definition printed (zone : Z -> Z) (ls : list oline) (ts : list (list Z)) : Prop := Forall2 (fun l t => line_text zone l = Some t) ls ts.

Lemma texts_printed : forall zone ls ts, printed zone ls ts -> texts zone ls = Some (concat ts).
Proof. intros zone ls ts H. induction H as [|l t ls ts H1 H IH]; [reflexivity|]. cbn [texts concat]. rewrite H1, IH. reflexivity. Qed.

(** *** Counting *)
Lemma next_from_count : forall conv d d' evs r, next_from conv d = Some (d', evs, r) -> msgs_in evs = if r then 1 else 0.
Proof.
  intros conv d d' evs r H. unfold next_from in H. destruct (decompressNext conv (d_dict d) (d_bf d)) as [[b [dm|]]|]; [| |discriminate H]; cbv beta iota zeta in H;
    injection H as <- <- <-; reflexivity.
Qed.

Lemma msgs_app : forall a b, msgs_in (a ++ b) = msgs_in a + msgs_in b.
Proof. intros a b. unfold msgs_in. now rewrite filter_app, zlen_app. Qed.

Lemma msgs_nonneg : forall a, 0 <= msgs_in a.
Proof. intros. apply zlen_nonneg. Qed.

Lemma next_extent_none : forall n d d' evs r, next_extent n d = Some (d', evs, r) -> msgs_in evs = 0.
Proof.
  induction n as [|n IH]; intros d d' evs r H; [discriminate H|]. cbn [next_extent] in H.
  destruct (bf_more (d_bf d) || f_eof (d_file d) || negb (d_good d)); [injection H as <- <- <-; reflexivity|].
  destruct (peekEntryType (d_file d)) as [entry f]. destruct (entry =? ET_BUFFER_EXTENT).
  - destruct (readBufferExtent f (d_bf d)) as [[[[f' b'] ok] w]|]; [|discriminate H]. destruct ok; [now apply IH in H|injection H as <- <- <-; reflexivity].
  - destruct (entry =? ET_CHECKPOINT).
    + destruct (readDictionary (d_cp d) (d_dict d) f) as [[[[f' cp] dict] ok]|]; [|discriminate H]. destruct ok; [|injection H as <- <- <-; reflexivity].
      destruct (next_extent n _) as [[[d2 e2] r2]|] eqn:E; [|discriminate H]. injection H as <- <- <-. apply IH in E. exact E.
    + destruct (entry =? ET_LOG_MSGS_OR_DIC); [|now apply IH in H].
      destruct (readDictionaryFragment f (d_dict d)) as [[[f' dict] ok]|]; [|discriminate H]. now apply IH in H.
Qed.

Lemma next_count : forall conv d d' evs r, getNextLogStatement conv d = Some (d', evs, r) -> msgs_in evs <= (if r then 1 else 0).
Proof.
  intros conv d d' evs r H. unfold getNextLogStatement in H. destruct (bf_more (d_bf d)).
  - destruct (next_from conv d) as [[[d2 e2] r2]|] eqn:E; [|discriminate H]. injection H as <- <- <-. apply next_from_count in E. rewrite E. destruct r2; lia.
  - destruct (negb (d_open d) || f_eof (d_file d) || negb (d_good d)); [injection H as <- <- <-; cbn; lia|].
    destruct (next_extent _ d) as [[[d2 e2] [|]]|] eqn:E; [| |discriminate H]; apply next_extent_none in E.
    + injection H as <- <- <-. lia.
    + destruct (next_from conv d2) as [[[d3 e3] r3]|] eqn:E'; [|discriminate H]. injection H as <- <- <-. apply next_from_count in E'. rewrite msgs_app, E, E'. lia.
Qed.

Lemma print_all_iterate : forall conv n d d' evs fuel, iterate conv n d = Some (d', evs, false) -> (n <= fuel)%nat ->
  exists k, print_all conv fuel d = Some (evs, k) /\ msgs_in evs <= k < Z.of_nat n.
Proof.
  intros conv. induction n as [|n IH]; intros d d' evs fuel H L; [discriminate H|]. destruct fuel as [|fuel]; [lia|]. cbn [iterate print_all] in *.
  destruct (getNextLogStatement conv d) as [[[d2 e2] [|]]|] eqn:E; [| |discriminate H]; pose proof (next_count _ _ _ _ _ E) as C; cbv beta iota in C.
  - destruct (iterate conv n d2) as [[[d3 e3] r3]|] eqn:E2; [|discriminate H]. injection H as <- <- ->. destruct (IH _ _ _ fuel E2 ltac:(lia)) as (k & P & B).
    rewrite P. exists (k + 1). split; [reflexivity|]. rewrite msgs_app. lia.
  - injection H as <- <-. exists 0. split; [reflexivity|]. lia.
Qed.

Lemma msgs_lines : forall evs, msgs_in evs = zlen (messages (map line_of evs)).
Proof.
  induction evs as [|[cp m|] evs IH]; [reflexivity| |]; cbn [map line_of]; unfold messages; cbn [map concat app]; fold (messages (map line_of evs)).
  - change (EvMsg cp m :: evs) with ([EvMsg cp m] ++ evs). rewrite msgs_app, IH, zlen_cons. reflexivity.
  - rewrite <- IH. reflexivity.
Qed.

Lemma wmsgs_length : forall ws last, (length ws <= length (wmsgs_bytes last ws))%nat.
Proof.
  induction ws as [|w ws IH]; intro last; [cbn; lia|]. cbn [wmsgs_bytes length]. unfold wmsg_bytes, hbytes. rewrite !app_length. cbn [length]. specialize (IH (w_ts w)). lia.
Qed.

Lemma messages_fit : forall items cp, (length (messages (file_lines cp items)) <= length (file_bytes items))%nat.
Proof.
  induction items as [|it items IH]; intro cp; [cbn; lia|]. unfold file_bytes in *. cbn [map concat]. rewrite app_length.
  destruct it as [bs|total ss|tid np ms|junk cp']; cbn [file_lines].
  - specialize (IH cp). lia.
  - specialize (IH cp). lia.
  - rewrite messages_app, app_length. specialize (IH cp). cbn [item_bytes]. unfold extent_bytes. rewrite !app_length.
    assert (E : length (messages (map (show cp tid) ms)) = length (map fm_w ms)).
    { rewrite map_length. clear. induction ms as [|m ms IH]; [reflexivity|]. unfold messages in *. cbn [map concat]. rewrite app_length, IH. reflexivity. }
    pose proof (wmsgs_length (map fm_w ms) 0). lia.
  - specialize (IH cp'). unfold messages at 1. cbn [map concat app]. fold (messages (file_lines cp' items)). lia.
Qed.

Lemma whole_bytes : forall items k, (length (file_bytes (whole k items)) <= length (firstn k (file_bytes items)))%nat.
Proof.
  induction items as [|it items IH]; intro k; [cbn; lia|]. cbn [whole]. destruct (Nat.leb_spec (length (item_bytes it)) k) as [L|L]; [|cbn; lia].
  unfold file_bytes in *. cbn [map concat]. rewrite firstn_app, !app_length, (firstn_all2 (item_bytes it)) by lia.
  specialize (IH (k - length (item_bytes it))%nat). lia.
Qed.

Lemma eqb_refl : forall a, list_eqb a a = true.
Proof. intro a. unfold list_eqb. destruct (list_eq_dec Z.eq_dec a a); auto. Qed.

(** decompressUnordered, for a log of which the first [k] bytes are left. *)
Theorem C64_unordered : forall conv pick zone fs exe name more items k ts, file_ok conv items -> fs name = Some (firstn k (file_bytes items)) ->
  printed zone (lines_of (whole k items)) ts ->
  program conv pick zone fs (exe :: chars "decompressUnordered" :: name :: more) =
    if (k <? 33)%nat then Some (1, chars "Unable to open file " ++ name ++ [13; 10])
    else Some (0, concat ts ++ last_line (zlen (messages (lines_of (whole k items))))).
Proof.
  intros conv pick zone fs exe name more items k ts Hf Hn Ht.
  destruct (C23_truncated conv new_decoder items k Hf) as (_ & C).
  assert (EC : command_of (chars "decompressUnordered") = Some CUnordered) by reflexivity.
  unfold program. rewrite EC, Hn. cbv zeta. destruct (k <? 33)%nat.
  - destruct C as (d1 & E1 & _). rewrite E1. reflexivity.
  - destruct C as (d1 & d2 & evs & n & E1 & _ & _ & C). rewrite E1. destruct (C eq_refl) as (d3 & evs' & E2 & E3).
    assert (LF : (length (messages (lines_of (whole k items))) <= length (firstn k (file_bytes items)))%nat).
    { pose proof (whole_bytes items k) as W. destruct (whole k items) as [|it r] eqn:EW; [cbn; lia|]. destruct it as [?|? ?|? ? ?|junk cp]; cbn [lines_of]; try (cbn [messages map concat length]; lia).
      pose proof (messages_fit r cp). unfold file_bytes in *. cbn [map concat] in W. rewrite app_length in W. lia. }
    destruct (print_all_iterate _ _ _ _ _ (S (S (length (firstn k (file_bytes items))))) E2 ltac:(lia)) as (j & P & B).
    rewrite P, E3. rewrite (texts_printed _ _ _ Ht). rewrite msgs_lines, E3 in B.
    assert (j = zlen (messages (lines_of (whole k items)))) as -> by (unfold zlen in *; lia). reflexivity.
Qed.
Print Assumptions C64_unordered.

(** decompress: the same lines in another order (C21 and C62 say which), for the
    log of one execution. *)
Theorem C64_ordered : forall conv pick zone fs exe name more junk cp items k ts, heap_front pick -> file_ok conv (ICheckpoint junk cp :: items) ->
  one_execution items -> (33 <= k)%nat -> fs name = Some (firstn k (file_bytes (ICheckpoint junk cp :: items))) ->
  printed zone (file_lines cp (whole (k - 33) items)) ts ->
  exists ts', Permutation ts' ts /\
  program conv pick zone fs (exe :: chars "decompress" :: name :: more) =
    Some (0, concat ts' ++ last_line (zlen (messages (file_lines cp (whole (k - 33) items))))).
Proof.
  intros conv pick zone fs exe name more junk cp items k ts Hp Hf H1 Hk Hn Ht.
  destruct (C20_ordered_complete_partial conv pick new_decoder junk cp items k Hp Hf H1 Hk) as (d1 & d2 & evs & E1 & E2 & P).
  assert (EC : command_of (chars "decompress") = Some CDecompress) by reflexivity.
  destruct (Permutation_Forall2 (Permutation_sym P) Ht) as (ts' & PT & F). exists ts'. split; [now apply Permutation_sym|].
  unfold program. rewrite EC, Hn, E1. cbv zeta. rewrite E2. cbn [option_map fst snd]. rewrite (texts_printed _ _ _ F).
  assert (PM : zlen (messages (map line_of evs)) = zlen (messages (file_lines cp (whole (k - 33) items)))).
  { unfold zlen. f_equal. apply Permutation_length. clear - P. unfold messages. rewrite <- !flat_map_concat_map. now apply Permutation_flat_map. }
  rewrite PM. reflexivity.
Qed.
Print Assumptions C64_ordered.

(** Too few arguments, a command that there is not, a file that cannot be opened. *)
Theorem C64_usage : forall conv pick zone fs exe,
  (forall args, (length args < 2)%nat -> program conv pick zone fs (exe :: args) = Some (1, help_text exe)) /\
  (forall cmd name more, cmd <> chars "decompress" -> cmd <> chars "decompressUnordered" -> cmd <> chars "rcdfTime" ->
     program conv pick zone fs (exe :: cmd :: name :: more) = Some (1, help_text exe)) /\
  (forall cmd name more, In cmd [chars "decompress"; chars "decompressUnordered"; chars "rcdfTime"] -> fs name = None ->
     program conv pick zone fs (exe :: cmd :: name :: more) = Some (1, chars "Unable to open file " ++ name ++ [13; 10])).
Proof.
  intros conv pick zone fs exe. split; [|split].
  - intros [|a [|b args]] L; cbn [length] in L; try lia; reflexivity.
  - intros cmd name more N1 N2 N3. unfold program, command_of, list_eqb.
    destruct (list_eq_dec Z.eq_dec cmd (chars "decompress")); [contradiction|]. destruct (list_eq_dec Z.eq_dec cmd (chars "decompressUnordered")); [contradiction|].
    destruct (list_eq_dec Z.eq_dec cmd (chars "rcdfTime")); [contradiction|]. reflexivity.
  - intros cmd name more [<-|[<-|[<-|[]]]] E; unfold program; [change (command_of _) with (Some CDecompress)|change (command_of _) with (Some CUnordered)|change (command_of _) with (Some CRcdf)];
      cbv zeta; rewrite E; reflexivity.
Qed.
Print Assumptions C64_usage.

(** ** C65 *)

(** C65 as claimed: whatever the file contains, the number in the last line is
    the number of messages in front of it. *)
Definition numbered (evs : list event) (n : Z) : Prop := n = zlen (messages (map line_of evs)).

Definition C65_full : Prop := forall conv pick content d, d_open_file new_decoder content = Some (d, true) ->
  (forall evs n, print_all conv (S (S (length content))) d = Some (evs, n) -> numbered evs n) /\
  (forall d' evs n, decompressTo conv pick d = Some (d', evs, n) -> numbered evs n).

Lemma load_entry_none : forall d st n d' st' ns must evs, load_entry d st n = Some (d', st', ns, must, evs) -> msgs_in evs = 0 /\ d_printed d' = d_printed d.
Proof.
  intros d st n d' st' ns must evs H. unfold load_entry in H. destruct (peekEntryType (d_file d)) as [entry f]. destruct (entry =? ET_BUFFER_EXTENT).
  - destruct (allocateBufferFragment (d_free d)) as [b free]. destruct (readBufferExtent f b) as [[[[f' b'] ok] w]|]; [|discriminate H].
    injection H as <- <- <- <- <-. split; reflexivity.
  - destruct (entry =? ET_CHECKPOINT).
    + destruct (negb (is_empty (nth 0 st []))); [injection H as <- <- <- <- <-; split; reflexivity|].
      destruct (readDictionary (d_cp d) (d_dict d) f) as [[[[f' cp] dict] ok]|]; [|discriminate H]. injection H as <- <- <- <- <-. destruct ok; split; reflexivity.
    + destruct (entry =? ET_LOG_MSGS_OR_DIC); [|injection H as <- <- <- <- <-; split; reflexivity].
      destruct (readDictionaryFragment f (d_dict d)) as [[[f' dict] ok]|]; [|discriminate H]. injection H as <- <- <- <- <-. split; reflexivity.
Qed.

Lemma load_stages_none : forall fuel d st n d' st' n' must evs, load_stages fuel d st n = Some (d', st', n', must, evs) -> msgs_in evs = 0 /\ d_printed d' = d_printed d.
Proof.
  induction fuel as [|fuel IH]; intros d st n d' st' n' must evs H; [discriminate H|]. cbn [load_stages] in H.
  destruct (f_eof (d_file d) || negb (d_good d)); [injection H as <- <- <- <- <-; split; reflexivity|].
  destruct (load_entry d st n) as [[[[[d1 st1] ns] m0] e1]|] eqn:E; [|discriminate H]. apply load_entry_none in E. destruct E as [E1 E2]. cbv zeta in H.
  destruct ((m0 || f_eof (d_file d1)) || _)%bool; [injection H as <- <- <- <- <-; auto|].
  destruct (load_stages fuel d1 st1 _) as [[[[[d2 st2] n2] m2] e2]|] eqn:E'; [|discriminate H]. injection H as <- <- <- <- <-. apply IH in E'. destruct E' as [F1 F2].
  rewrite msgs_app. split; lia.
Qed.

Lemma ordered_count : forall conv pick fuel k d st n d' evs, ordered_loop conv pick fuel k d st n = Some (d', evs) -> d_printed d' = d_printed d + msgs_in evs.
Proof.
  intros conv pick. induction fuel as [|fuel IH]; intros k d st n d' evs H; [discriminate H|]. cbn [ordered_loop] in H.
  destruct (f_eof (d_file d) || negb (d_good d)); [injection H as <- <-; unfold msgs_in; cbn; lia|].
  destruct (load_stages _ d st n) as [[[[[d1 st1] n1] m1] e1]|] eqn:E; [|discriminate H]. apply load_stages_none in E. destruct E as [E1 E2].
  destruct (deplete _ _ _ _ _ _ _ _ _) as [[[[[k2 st2] n2] freed] e2]|]; [|discriminate H]. cbv zeta in H.
  destruct (ordered_loop conv pick fuel k2 _ st2 n2) as [[d3 e3]|] eqn:E'; [|discriminate H]. injection H as <- <-. apply IH in E'. cbn [d_printed] in E'.
  rewrite !msgs_app. lia.
Qed.

Lemma open_count : forall content d, d_open_file new_decoder content = Some (d, true) -> d_printed d = 0 /\ d_open d = true /\ bf_more (d_bf d) = false.
Proof.
  intros content d H. unfold d_open_file in H. destruct (readDictionary _ _ _) as [[[[f cp] dict] [|]]|]; [|discriminate H..]. injection H as <-. auto.
Qed.

(** The ordered output: for every file. *)
Theorem C65_ordered_partial : forall conv pick content d d' evs n, d_open_file new_decoder content = Some (d, true) ->
  decompressTo conv pick d = Some (d', evs, n) -> numbered evs n.
Proof.
  intros conv pick content d d' evs n H E. destruct (open_count _ _ H) as (P & O & _). unfold decompressTo in E. rewrite O in E. cbn [negb] in E.
  destruct (ordered_loop conv pick _ 0 d [[]; []; []] 0) as [[d1 e1]|] eqn:EL; [|discriminate E]. injection E as <- <- <-. apply ordered_count in EL.
  unfold numbered. rewrite <- msgs_lines. lia.
Qed.
Print Assumptions C65_ordered_partial.

(** The unordered output: never less, and not more than twice as many. *)
Lemma unordered_bound : forall conv fuel d evs n, print_all conv fuel d = Some (evs, n) ->
  msgs_in evs <= n <= 2 * msgs_in evs + (if bf_more (d_bf d) then 1 else 0).
Proof.
  intros conv. induction fuel as [|fuel IH]; intros d evs n H; [discriminate H|]. cbn [print_all] in H.
  destruct (getNextLogStatement conv d) as [[[d1 e1] r1]|] eqn:E; [|discriminate H].
  pose proof (next_count _ _ _ _ _ E) as C. pose proof (msgs_nonneg e1).
  assert (F : r1 = true -> msgs_in e1 = 1 \/ (msgs_in e1 = 0 /\ bf_more (d_bf d) = true /\ bf_more (d_bf d1) = false)).
  { intros ->. unfold getNextLogStatement in E. destruct (bf_more (d_bf d)) eqn:EM.
    - unfold next_from in E. destruct (decompressNext conv (d_dict d) (d_bf d)) as [[b [dm|]]|] eqn:ED; [| |discriminate E]; cbv beta iota zeta in E; injection E as <- <-.
      + left. reflexivity.
      + right. split; [reflexivity|]. split; [reflexivity|]. cbn [d_bf]. unfold decompressNext in ED.
        destruct ((bf_end (d_bf d) <? bf_pos (d_bf d)) || negb (bf_more (d_bf d))); [injection ED as <-; reflexivity|].
        destruct (metadata_at _ _); [|discriminate ED]. destruct (print_message _ _ _ _ _) as [[[? ?] ?]|]; [|discriminate ED]. cbv zeta in ED.
        destruct (bf_end (d_bf d) <=? z); [discriminate ED|]. destruct (decompressLogHeader _ _ _) as [[[? ?] ?]|]; discriminate ED.
    - destruct (negb (d_open d) || f_eof (d_file d) || negb (d_good d)); [discriminate E|].
      destruct (next_extent _ d) as [[[d2 e2] [|]]|] eqn:EN; [discriminate E| |discriminate E]. apply next_extent_none in EN.
      destruct (next_from conv d2) as [[[d3 e3] r3]|] eqn:EF; [|discriminate E]. injection E as <- <- ->. apply next_from_count in EF. left. rewrite msgs_app. lia. }
  destruct r1.
  - destruct (print_all conv fuel d1) as [[e2 k]|] eqn:E2; [|discriminate H]. injection H as <- <-. apply IH in E2. rewrite msgs_app. specialize (F eq_refl).
    destruct (bf_more (d_bf d)), (bf_more (d_bf d1)); lia || (destruct F as [F|(F1 & F2 & F3)]; try discriminate; lia).
  - injection H as <- <-. destruct (bf_more (d_bf d)); lia.
Qed.

Theorem C65_unordered_partial : forall conv content d evs n, d_open_file new_decoder content = Some (d, true) ->
  print_all conv (S (S (length content))) d = Some (evs, n) -> zlen (messages (map line_of evs)) <= n <= 2 * zlen (messages (map line_of evs)).
Proof.
  intros conv content d evs n H E. destruct (open_count _ _ H) as (_ & _ & M). apply unordered_bound in E. rewrite M in E. rewrite <- msgs_lines. lia.
Qed.
Print Assumptions C65_unordered_partial.

(** C65 is false: an extent that ends within the header of a message. *)
Definition short_extent : list Z := [62; 11; 0; 0; 0; 17; 0; 20; 1; 11; 1].
Definition short_content : list Z := file_bytes [ICheckpoint 5 cp62; IDict 1 [fsite 7]] ++ short_extent.

Definition count_of (content : list Z) : option (Z * Z) :=
  match d_open_file new_decoder content with
  | Some (d, true) => option_map (fun r => (zlen (messages (map line_of (fst r))), snd r)) (print_all Prop_Message.show (S (S (length content))) d)
  | _ => None
  end.

Theorem C65_refuted : ~ C65_full.
Proof.
  intro H. assert (C : count_of short_content = Some (1, 2)) by (vm_compute; reflexivity). unfold count_of in C.
  destruct (d_open_file new_decoder short_content) as [[d [|]]|] eqn:E; try discriminate C.
  destruct (H Prop_Message.show pick_first short_content d E) as [H1 _].
  destruct (print_all Prop_Message.show _ d) as [[evs n]|] eqn:P; [|discriminate C]. specialize (H1 evs n eq_refl). cbn [option_map fst snd] in C.
  unfold numbered in H1. injection C as C1 C2. lia.
Qed.
Print Assumptions C65_refuted.

(** ** Instances *)
Definition only (name content : list Z) (n : list Z) : option (list Z) := if list_eqb n name then Some content else None.
Definition log62 : list item := [ICheckpoint 5 cp62; IDict 1 [fsite 7]; pass 0 7 5000; pass 0 7 2000].
Definition run62 (k : nat) (cmd name : list Z) : option (Z * list Z) :=
  program Prop_Message.show pick_first (fun _ => 3600) (only (chars "log") (firstn k (file_bytes log62))) [chars "decompressor"; cmd; name].
Definition text62 (s : list Z) : list Z := chars "1970-01-03 08:33:20." ++ s ++ chars " a.cc:7 WARNING[3]: n=" ++ [11; 13; 10].

Example C64_instance :
  run62 200 (chars "decompressUnordered") (chars "log") =
    Some (0, text62 (chars "000001667") ++ text62 (chars "000000417") ++ [13; 10; 13; 10] ++ chars "# Decompression Complete after printing 2 log messages" ++ [13; 10]) /\
  run62 200 (chars "decompress") (chars "log") =
    Some (0, text62 (chars "000000417") ++ text62 (chars "000001667") ++ [13; 10; 13; 10] ++ chars "# Decompression Complete after printing 2 log messages" ++ [13; 10]) /\
  run62 (length (file_bytes log62) - 1) (chars "decompressUnordered") (chars "log") =
    Some (0, text62 (chars "000001667") ++ [13; 10; 13; 10] ++ chars "# Decompression Complete after printing 1 log messages" ++ [13; 10]) /\
  run62 200 (chars "decompress") (chars "lag") = Some (1, chars "Unable to open file lag" ++ [13; 10]).
Proof. split; [lazy; reflexivity|]. split; [lazy; reflexivity|]. split; lazy; reflexivity. Qed.

(** The message printed is counted twice. *)
Example C65_instance : program Prop_Message.show pick_first (fun _ => 3600) (only (chars "log") short_content) [chars "decompressor"; chars "decompressUnordered"; chars "log"] =
    Some (0, chars "1970-01-03 08:33:19.999999592 a.cc:7 WARNING[3]: n=" ++ [11; 13; 10; 13; 10; 13; 10] ++ chars "# Decompression Complete after printing 2 log messages" ++ [13; 10]) /\
  program Prop_Message.show pick_first (fun _ => 3600) (only (chars "log") short_content) [chars "decompressor"; chars "decompress"; chars "log"] =
    Some (0, chars "1970-01-03 08:33:19.999999592 a.cc:7 WARNING[3]: n=" ++ [11; 13; 10; 13; 10; 13; 10] ++ chars "# Decompression Complete after printing 1 log messages" ++ [13; 10]).
Proof. split; lazy; reflexivity. Qed.
