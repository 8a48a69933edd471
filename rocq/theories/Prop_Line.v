(** C62 and C63: the lines of the decompressor's output as text. *)
From Coq Require Import QArith Qabs Permutation Sorted.
From Verif Require Import Base BaseProofs Chars Fmt Preproc PreprocProofs DecodeProofs Printf Encoder Wire Prop_Encoder Decoder FileSpec DecoderProofs Prop_Decoder
  Ordered OrderedProofs OrderSpec OrderTheory Prop_Ordered TimeFmt TimeProofs Prop_Time Prop_TimeOrder RingProofs LineFmt LineProofs.
Open Scope Z_scope.
Ltac Zify.zify_post_hook ::= Z.div_mod_to_equations.

(** ** C62 *)

(** A clock that is not set back. *)
Definition steady (zone : Z -> Z) : Prop := forall a b, a < b -> a + zone a < b + zone b.

(** The message's time is near enough to the checkpoint's for C35 and C54, from
    1970 to 9999, and its severity has a name. *)
Definition timed (zone : Z -> Z) (sh : shown) : Prop :=
  exists cps, double_of (cp_cps (sh_cp sh)) = Some cps /\
    let tb := TimeBase (cp_rdtsc (sh_cp sh)) (cp_unixTime (sh_cp sh)) cps in
    let a := fst (abs_time tb (sh_ts sh)) in
    usual tb (sh_ts sh) /\ 0 <= a + zone a /\ da_year (date_of ((a + zone a) / 86400)) < 10000 /\ 0 <= sh_level sh < 5.

(** "2023-11-14 22:13:20.123456789": 29 characters. *)
Definition in_text_order (zone : Z -> Z) (ls : list oline) : Prop :=
  exists texts, Forall2 (fun l t => line_text zone l = Some t) ls texts /\ StronglySorted lex_le (map (firstn 29) texts).

(** C62 as claimed: with the conditions of C21, in the output of the ordered
    decompression the time stamps are in order as text. *)
Definition C62_full : Prop := forall zone conv pick d junk cp items, steady zone -> heap_front pick -> file_ok conv (ICheckpoint junk cp :: items) ->
  one_execution items -> extents_sorted items -> displaced 2 (passes items) -> passes_nonempty (passes items) -> extents_nonempty items ->
  Forall (timed zone) (messages (file_lines cp items)) ->
  exists d1 d2 evs n,
    d_open_file d (file_bytes (ICheckpoint junk cp :: items)) = Some (d1, true) /\ decompressTo conv pick d1 = Some (d2, evs, n) /\
    in_text_order zone (map line_of evs).

(** The nanoseconds do not round to a whole second (C35). *)
Definition nine_digits (sh : shown) : Prop := forall cps, double_of (cp_cps (sh_cp sh)) = Some cps ->
  rhe (snd (abs_time (TimeBase (cp_rdtsc (sh_cp sh)) (cp_unixTime (sh_cp sh)) cps) (sh_ts sh))) < 10 ^ 9.

Lemma line_stamp : forall zone sh, timed zone sh -> nine_digits sh -> exists cps t,
  double_of (cp_cps (sh_cp sh)) = Some cps /\ line_text zone (LMsg sh) = Some t /\
  let tb := TimeBase (cp_rdtsc (sh_cp sh)) (cp_unixTime (sh_cp sh)) cps in
  let a := fst (abs_time tb (sh_ts sh)) in let n := rhe (snd (abs_time tb (sh_ts sh))) in
  usual tb (sh_ts sh) /\ 0 <= a + zone a /\ Forall fld_fits (stamp_fields (a + zone a) n) /\ firstn 29 t = fields (stamp_fields (a + zone a) n).
Proof.
  intros zone sh (cps & DC & U & A & Y & L) N. specialize (N cps DC). exists cps.
  set (tb := TimeBase (cp_rdtsc (sh_cp sh)) (cp_unixTime (sh_cp sh)) cps) in *.
  destruct (abs_time_err tb (sh_ts sh) U) as (B & _).
  cbn [line_text]. rewrite DC. fold tb. destruct (abs_time tb (sh_ts sh)) as [a x] eqn:E. cbn [fst snd] in *.
  destruct (stamp_text zone a x A) as (ts & T1 & T2). rewrite T1.
  destruct (nth_error logLevelNames (Z.to_nat (sh_level sh))) as [nm|] eqn:EN.
  2:{ apply nth_error_None in EN. change (length logLevelNames) with 5%nat in EN. lia. }
  eexists. split; [reflexivity|]. split; [reflexivity|]. split; [exact U|]. split; [exact A|].
  assert (F : Forall fld_fits (stamp_fields (a + zone a) (rhe x))) by (apply stamp_fits; auto; lia). split; [exact F|].
  assert (LF : length (fields (stamp_fields (a + zone a) (rhe x))) = 29%nat).
  { assert (ZL : zlen (fields (stamp_fields (a + zone a) (rhe x))) = 29) by (rewrite fields_length by exact F; reflexivity). unfold zlen in ZL. lia. }
  rewrite (app_assoc (chars ".")), (app_assoc ts), T2, firstn_app, LF, Nat.sub_diag, firstn_O, app_nil_r.
  apply firstn_all2. lia.
Qed.

Lemma alike_stamps : forall t n t' n', Forall2 alike (stamp_fields t n) (stamp_fields t' n').
Proof. intros. unfold stamp_fields. repeat constructor. Qed.

Lemma stamps_order : forall zone cp s1 s2 t1 t2, steady zone -> sh_cp s1 = cp -> sh_cp s2 = cp -> timed zone s1 -> timed zone s2 -> nine_digits s1 -> nine_digits s2 ->
  sh_ts s1 <= sh_ts s2 -> line_text zone (LMsg s1) = Some t1 -> line_text zone (LMsg s2) = Some t2 -> lex_le (firstn 29 t1) (firstn 29 t2).
Proof.
  intros zone cp s1 s2 t1 t2 Z C1 C2 T1 T2 N1 N2 L E1 E2.
  destruct (line_stamp zone s1 T1 N1) as (c1 & t1' & D1 & E1' & U1 & A1 & F1 & G1).
  destruct (line_stamp zone s2 T2 N2) as (c2 & t2' & D2 & E2' & U2 & A2 & F2 & G2).
  assert (t1' = t1) by congruence. assert (t2' = t2) by congruence. subst t1' t2'. rewrite C1 in *. rewrite C2 in *. assert (c2 = c1) by congruence. subst c2.
  set (tb := TimeBase (cp_rdtsc cp) (cp_unixTime cp) c1) in *.
  pose proof (C54_never_backwards tb (sh_ts s1) (sh_ts s2) U1 U2 L) as O. unfold earlier_or_same in O.
  destruct (abs_time_err tb _ U1) as (B1 & _). destruct (abs_time_err tb _ U2) as (B2 & _).
  rewrite (proj1 (text_spec _ B1)), (proj1 (text_spec _ B2)) in O.
  rewrite G1, G2. apply fields_lex; auto using alike_stamps. apply stamp_order; auto.
  destruct O as [O|[O1 O2]]; [left; now apply Z|right]. rewrite O1. auto.
Qed.

Lemma lines_order : forall zone cp ls, steady zone -> Forall (fun l => exists sh, l = LMsg sh /\ sh_cp sh = cp /\ timed zone sh /\ nine_digits sh) ls ->
  StronglySorted Z.le (map sh_ts (messages ls)) -> in_text_order zone ls.
Proof.
  intros zone cp ls Z F. induction F as [|l ls (sh & -> & C & T & N) F IH]; intro S; [exists []; split; constructor|].
  unfold messages in S. cbn [map concat app] in S. fold (messages ls) in S. inversion S as [|? ? S1 S2]; subst.
  destruct (IH S1) as (texts & E & O). destruct (line_stamp zone sh T N) as (cps & t & _ & ET & _).
  exists (t :: texts). split; [constructor; auto|]. cbn [map]. constructor; [exact O|].
  clear - Z F T N E S2 ET. induction E as [|l t2 ls texts E1 E IH]; [constructor|].
  inversion F as [|? ? (sh2 & -> & C2 & T2 & N2) F']; subst. unfold messages in S2. cbn [map concat app] in S2. fold (messages ls) in S2. inversion S2; subst.
  cbn [map]. constructor; [|auto].
  apply (stamps_order zone (sh_cp sh) sh sh2 t t2 Z eq_refl C2 T T2 N N2); assumption.
Qed.

Lemma lines_one : forall cp items l, one_execution items -> In l (file_lines cp items) -> exists sh, l = LMsg sh /\ sh_cp sh = cp.
Proof.
  intros cp items. induction items as [|it items IH]; intros l O H; [contradiction|]. inversion O; subst.
  destruct it as [?|? ?|tid np ms|? ?]; cbn [file_lines] in H; try discriminate; auto.
  apply in_app_or in H. destruct H as [H|H]; [|auto]. apply in_map_iff in H. destruct H as (x & <- & _). eexists. split; [reflexivity|]. reflexivity.
Qed.

Lemma in_messages : forall ls sh, In (LMsg sh) ls -> In sh (messages ls).
Proof. intros ls sh H. unfold messages. apply in_concat. exists [sh]. split; [apply in_map_iff; exists (LMsg sh); auto|now left]. Qed.

Theorem C62_partial : forall zone conv pick d junk cp items, steady zone -> heap_front pick -> file_ok conv (ICheckpoint junk cp :: items) ->
  one_execution items -> extents_sorted items -> displaced 2 (passes items) -> passes_nonempty (passes items) -> extents_nonempty items ->
  Forall (timed zone) (messages (file_lines cp items)) -> Forall nine_digits (messages (file_lines cp items)) ->
  exists d1 d2 evs n,
    d_open_file d (file_bytes (ICheckpoint junk cp :: items)) = Some (d1, true) /\ decompressTo conv pick d1 = Some (d2, evs, n) /\
    in_text_order zone (map line_of evs).
Proof.
  intros zone conv pick d junk cp items Z Hp Hf H1 H2 H3 H4 H5 T N.
  destruct (C21_chronological_partial conv pick d junk cp items Hp Hf H1 H2 H3 H4 (or_introl H5)) as (d1 & d2 & evs & E1 & E2 & P & C & _).
  exists d1, d2, evs, (zlen (messages (map line_of evs))). splits; auto. apply (lines_order zone cp); auto.
  rewrite Forall_forall in T, N |- *. intros l Hl. apply (Permutation_in _ P) in Hl. destruct (lines_one cp items l H1 Hl) as (sh & -> & C').
  exists sh. apply in_messages in Hl. auto.
Qed.
Print Assumptions C62_partial.

(** ** C62 is false: ten digits *)
Definition cp62 : checkpoint := Checkpoint 1000 200000 [0; 0; 0; 0; 163; 225; 225; 65].
Definition ten : list item := [IDict 1 [fsite 7]; pass 0 7 2400000000; pass 0 7 2400000999; pass 0 7 2400001000].
Definition line62 (ts : Z) : oline := LMsg (Shown cp62 0 ts 3 (chars "a.cc") 7 2 (chars "n=" ++ [11])).

Lemma ten_ok : file_ok Prop_Message.show (ICheckpoint 5 cp62 :: ten).
Proof.
  unfold file_ok, ten, pass. cbn [items_ok knows app]. split.
  { cbn [item_ok cp62 cp_rdtsc cp_unixTime cp_cps]. splits; try lia; try reflexivity. repeat (constructor; [unfold is_byte; lia|]). constructor. }
  split; [apply ok_dict; lia|]. split; [ok_extent|]. split; [ok_extent|]. split; [ok_extent|exact I].
Qed.

(** 2.4 GHz; the local time is an hour ahead. *)
Lemma timed62 : forall ts, In ts [2000; 5000; 2400000000; 2400000999; 2400001000] ->
  timed (fun _ => 3600) (Shown cp62 0 ts 3 (chars "a.cc") 7 2 (chars "n=" ++ [11])).
Proof.
  intros ts H. cbn [In] in H. assert (E : exists c, double_of (cp_cps cp62) = Some c) by (eexists; reflexivity). destruct E as (c & E). exists c. split; [exact E|].
  lazy in E. injection E as <-. cbn [sh_cp sh_ts sh_level cp62 cp_rdtsc cp_unixTime]. split.
  { unfold usual, elapsed. cbn [tb_cps tb_rdtsc]. split; [reflexivity|]. split; [lia|].
    destruct H as [<-|[<-|[<-|[<-|[<-|[]]]]]]; apply Qle_bool_iff; lazy; reflexivity. }
  destruct H as [<-|[<-|[<-|[<-|[<-|[]]]]]]; (split; [apply Z.leb_le; lazy; reflexivity|]); (split; [apply Z.ltb_lt; lazy; reflexivity|]); lia.
Qed.

Lemma steady_hour : steady (fun _ => 3600).
Proof. intros a b H. lia. Qed.

Theorem C62_refuted : ~ C62_full.
Proof.
  intro H. destruct (H (fun _ => 3600) Prop_Message.show pick_first new_decoder 5 cp62 ten steady_hour pick_first_heap ten_ok) as (d1 & d2 & evs & n & E1 & E2 & texts & F & O).
  - repeat constructor.
  - sorted_extents.
  - few_passes.
  - repeat constructor; discriminate.
  - intros tid np ms Hin. repeat (destruct Hin as [Hin|Hin]; [first [discriminate Hin | injection Hin as _ _ <-; discriminate]|]). contradiction.
  - change (messages (file_lines cp62 ten)) with (messages [line62 2400000000; line62 2400000999; line62 2400001000]).
    repeat (constructor; [apply timed62; cbn [In]; tauto|]). constructor.
  - assert (R : run_ordered (ICheckpoint 5 cp62 :: ten) = Some [line62 2400000000; line62 2400000999; line62 2400001000]) by (vm_compute; reflexivity).
    rewrite (run_ordered_inv _ _ _ _ _ _ R E1 E2) in F. clear - F O.
    inversion F as [|? t1 ? r1 T1 F1]; subst. inversion F1 as [|? t2 ? r2 T2 F2]; subst. clear F F1 F2. cbn [map] in O. inversion O as [|? ? _ O1]; subst. inversion O1 as [|? ? O2 _]; subst.
    lazy in T1. lazy in T2. apply some_inj in T1. apply some_inj in T2. subst t1 t2. lazy in O2. intuition discriminate.
Qed.
Print Assumptions C62_refuted.

(** ** C62: an instance
    The first two passes are read out of order. *)
Definition early : list item := [IDict 1 [fsite 7]; pass 0 7 5000; pass 0 7 2000; pass 0 7 2400000000; pass 0 7 2400001000].

Example C62_instance : Forall (timed (fun _ => 3600)) (messages (file_lines cp62 early)) /\ displaced 2 (passes early) /\
  run_ordered (ICheckpoint 5 cp62 :: early) = Some [line62 2000; line62 5000; line62 2400000000; line62 2400001000] /\
  map (line_text (fun _ => 3600)) [line62 2000; line62 5000; line62 2400000000; line62 2400001000] =
    map Some [chars "1970-01-03 08:33:20.000000417 a.cc:7 WARNING[3]: n=" ++ [11; 13; 10];
              chars "1970-01-03 08:33:20.000001667 a.cc:7 WARNING[3]: n=" ++ [11; 13; 10];
              chars "1970-01-03 08:33:20.999999583 a.cc:7 WARNING[3]: n=" ++ [11; 13; 10];
              chars "1970-01-03 08:33:21.000000000 a.cc:7 WARNING[3]: n=" ++ [11; 13; 10]] /\
  line_text (fun _ => 3600) (line62 2400000999) = Some (chars "1970-01-03 08:33:20.1000000000 a.cc:7 WARNING[3]: n=" ++ [11; 13; 10]).
Proof.
  split. { change (messages (file_lines cp62 early)) with (messages [line62 5000; line62 2000; line62 2400000000; line62 2400001000]).
    repeat (constructor; [apply timed62; cbn [In]; tauto|]). constructor. }
  split; [few_passes|]. split; [vm_compute; reflexivity|]. split; lazy; reflexivity.
Qed.

Example C62_leap_days : map date_of [58; 59; 365; 789; 790; 10956; 11016; 11017; 19675] =
  [Date 1970 2 28; Date 1970 3 1; Date 1971 1 1; Date 1972 2 29; Date 1972 3 1; Date 1999 12 31; Date 2000 2 29; Date 2000 3 1; Date 2023 11 14].
Proof. vm_compute. reflexivity. Qed.

(** The Gregorian calendar by counting: days before a year, days of its months. *)
Definition leap_years_before (y : Z) : Z := (y - 1) / 4 - (y - 1) / 100 + (y - 1) / 400.
Definition first_day (y : Z) : Z := 365 * (y - 1970) + (leap_years_before y - leap_years_before 1970).
Definition month_starts (y m : Z) : Z :=
  nth (Z.to_nat m) [0; 0; 31; 59; 90; 120; 151; 181; 212; 243; 273; 304; 334; 365] 0 +
  (if 2 <? m then first_day (y + 1) - first_day y - 365 else 0).

Lemma year_length : forall y, first_day (y + 1) - first_day y = if leap y then 366 else 365.
Proof.
  intros y. unfold first_day, leap_years_before, leap. replace (y + 1 - 1) with y by lia.
  destruct (y mod 4 =? 0) eqn:A, (y mod 100 =? 0) eqn:B, (y mod 400 =? 0) eqn:C; cbn [andb orb negb]; lia.
Qed.

Lemma month_length : forall y m, 1 <= m <= 12 -> month_starts y (m + 1) - month_starts y m = days_in y m.
Proof.
  intros y m H. unfold month_starts. rewrite year_length. unfold days_in.
  assert (m = 1 \/ m = 2 \/ m = 3 \/ m = 4 \/ m = 5 \/ m = 6 \/ m = 7 \/ m = 8 \/ m = 9 \/ m = 10 \/ m = 11 \/ m = 12) as C by lia.
  decompose [or] C; subst m; destruct (leap y); reflexivity.
Qed.

(** The date printed for a day is its date in the Gregorian calendar. *)
Theorem C62_calendar : forall days, 0 <= days -> let d := date_of days in
  1 <= da_month d <= 12 /\ days = first_day (da_year d) + month_starts (da_year d) (da_month d) + (da_day d - 1) /\
  1 <= da_day d <= month_starts (da_year d) (da_month d + 1) - month_starts (da_year d) (da_month d).
Proof.
  intros days H. cbv zeta. pattern days. apply natlike_ind; [| |exact H]; clear days H.
  - vm_compute. splits; reflexivity || discriminate.
  - intros n H IH. replace (Z.succ n) with (n + 1) by lia. rewrite date_succ by exact H. pose proof (date_valid n H) as V.
    destruct (date_of n) as [y m d]. unfold valid in V. cbn [da_year da_month da_day] in *. destruct IH as (M & E & D).
    rewrite month_length in D by exact M. unfold next_day. cbn [da_year da_month da_day].
    destruct (Z.ltb_spec d (days_in y m)); cbn [da_year da_month da_day].
    + rewrite month_length by exact M. lia.
    + destruct (Z.ltb_spec m 12); cbn [da_year da_month da_day].
      * pose proof (month_length y m M). rewrite (month_length y (m + 1)) by lia. pose proof (days_in_bound y (m + 1)). lia.
      * replace m with 12 in * by lia. pose proof (month_length y 12 ltac:(lia)) as L. rewrite month_length by lia. pose proof (days_in_bound (y + 1) 1).
        pose proof (year_length y) as YL. assert (month_starts y 13 = if leap y then 366 else 365) by (unfold month_starts; rewrite YL; destruct (leap y); reflexivity).
        change (12 + 1) with 13 in L. change (month_starts (y + 1) 1) with 0. lia.
Qed.
Print Assumptions C62_calendar.

(** ** C63 *)

(** The local time of the message to the second, and its nanoseconds. *)
Definition local_stamp (zone : Z -> Z) (sh : shown) : option (Z * Z) :=
  match double_of (cp_cps (sh_cp sh)) with
  | None => None
  | Some cps => let '(a, x) := abs_time (TimeBase (cp_rdtsc (sh_cp sh)) (cp_unixTime (sh_cp sh)) cps) (sh_ts sh) in Some (a + zone a, rhe x)
  end.

Definition same_event (zone : Z -> Z) (s1 s2 : shown) : Prop :=
  local_stamp zone s1 = local_stamp zone s2 /\ sh_file s1 = sh_file s2 /\ sh_line s1 = sh_line s2 /\ sh_level s1 = sh_level s2 /\
  sh_tid s1 = sh_tid s2 /\ sh_text s1 = sh_text s2.

(** The fields are unsigned in the file, and the time is in the range of C35. *)
Definition placed (sh : shown) : Prop := 0 <= sh_line sh /\ 0 <= sh_level sh /\ 0 <= sh_tid sh /\
  forall cps, double_of (cp_cps (sh_cp sh)) = Some cps -> usual (TimeBase (cp_rdtsc (sh_cp sh)) (cp_unixTime (sh_cp sh)) cps) (sh_ts sh).

(** C63 as claimed: lines that are the same tell of the same time, place,
    severity, thread and text. *)
Definition C63_full : Prop := forall zone s1 s2 t, placed s1 -> placed s2 ->
  line_text zone (LMsg s1) = Some t -> line_text zone (LMsg s2) = Some t -> same_event zone s1 s2.

Lemma cut : forall (c : Z) a a' b b', ~ In c a -> ~ In c a' -> a ++ c :: b = a' ++ c :: b' -> a = a' /\ b = b'.
Proof.
  intros c. induction a as [|x a IH]; intros [|y a'] b b' N N' E; cbn [app] in E.
  - injection E as E. auto.
  - injection E as E1 _. subst y. destruct N'. now left.
  - injection E as E1 _. subst x. destruct N. now left.
  - injection E as E1 E2. subst y. destruct (IH a' b b') as [-> ->]; auto; intro; [apply N|apply N']; now right.
Qed.

Lemma digits_free : forall c l, Forall is_digit l -> (c < 48 \/ 57 < c) -> ~ In c l.
Proof. intros c l F H I. rewrite Forall_forall in F. specialize (F c I). unfold is_digit in F. lia. Qed.

Lemma padded_inj : forall w a b, 0 <= a -> 0 <= b -> padded w a = padded w b -> a = b.
Proof. intros w a b Ha Hb E. rewrite <- (proj1 (proj2 (padded_spec w a Ha))), <- (proj1 (proj2 (padded_spec w b Hb))). now f_equal. Qed.

Lemma cut_num : forall w c a a' b b', 0 <= a -> 0 <= a' -> (c < 48 \/ 57 < c) -> padded w a ++ c :: b = padded w a' ++ c :: b' -> a = a' /\ b = b'.
Proof.
  intros w c a a' b b' H H' C E. apply cut in E; [destruct E as [E ->]; split; [|reflexivity]; now apply padded_inj in E| |]; (apply digits_free; [apply padded_spec; lia|exact C]).
Qed.

Lemma cut_dec : forall c a a' b b', 0 <= a -> 0 <= a' -> (c < 48 \/ 57 < c) -> dec_str a ++ c :: b = dec_str a' ++ c :: b' -> a = a' /\ b = b'.
Proof.
  intros c a a' b b' H H' C E. apply cut in E; [destruct E as [E ->]; split; [|reflexivity]; now apply dec_str_inj in E| |]; (apply digits_free; [apply dec_str_spec; lia|exact C]).
Qed.

Lemma time_cut : forall zone a a' t t' b b', time_string zone a = Some t -> time_string zone a' = Some t' -> t ++ 46 :: b = t' ++ 46 :: b' ->
  a + zone a = a' + zone a' /\ b = b'.
Proof.
  intros zone a a' t t' b b' H H' E. unfold time_string in H, H'.
  destruct (Z.ltb_spec (a + zone a) 0) as [|L]; [discriminate H|]. destruct (Z.ltb_spec (a' + zone a') 0) as [|L']; [discriminate H'|].
  apply some_inj in H. apply some_inj in H'. subst t t'. set (u := a + zone a) in *. set (u' := a' + zone a') in *. clearbody u u'.
  destruct (date_valid (u / 86400) ltac:(lia)) as (Y1 & M1 & D1). destruct (date_valid (u' / 86400) ltac:(lia)) as (Y2 & M2 & D2).
  rewrite <- !app_assoc in E. change (chars "-") with [45] in E. change (chars " ") with [32] in E. change (chars ":") with [58] in E. cbn [app] in E.
  apply cut_num in E; [|lia..]. destruct E as [EY E]. apply cut_num in E; [|lia..]. destruct E as [EM E]. apply cut_num in E; [|lia..]. destruct E as [ED E].
  apply cut_num in E; [|lia..]. destruct E as [EH E]. apply cut_num in E; [|lia..]. destruct E as [EMi E]. apply cut_num in E; [|lia..]. destruct E as [ES E].
  assert (EE : u / 86400 = u' / 86400).
  { apply date_inj; [lia|lia|]. destruct (date_of (u / 86400)) as [y1 m1 e1], (date_of (u' / 86400)) as [y2 m2 e2]. cbn [da_year da_month da_day] in *. congruence. }
  split; [|exact E]. clear - EE EH EMi ES L L'. assert (u mod 86400 = u' mod 86400).
  { assert (0 <= u mod 86400 < 86400) by lia. assert (0 <= u' mod 86400 < 86400) by lia. set (x := u mod 86400) in *. set (y := u' mod 86400) in *. clearbody x y. clear - EH EMi ES H H0. lia. }
  lia.
Qed.

Lemma levels_cut : forall i j ni nj b b', nth_error logLevelNames i = Some ni -> nth_error logLevelNames j = Some nj -> ni ++ 91 :: b = nj ++ 91 :: b' -> i = j /\ b = b'.
Proof.
  intros i j ni nj b b' Hi Hj E. assert (F : Forall (fun n => ~ In 91 n) logLevelNames) by (repeat (constructor; [cbn; intuition discriminate|]); constructor).
  rewrite Forall_forall in F. apply cut in E; [|apply F; eapply nth_error_In; eauto..]. destruct E as [-> ->]. split; [|reflexivity].
  do 5 (destruct i as [|i]; [do 5 (destruct j as [|j]; [try reflexivity; rewrite <- Hi in Hj; discriminate Hj|]); destruct j; discriminate Hj|]). destruct i; discriminate Hi.
Qed.

Theorem C63_partial : forall zone s1 s2 t, placed s1 -> placed s2 -> ~ In 58 (sh_file s1) -> ~ In 58 (sh_file s2) ->
  line_text zone (LMsg s1) = Some t -> line_text zone (LMsg s2) = Some t -> same_event zone s1 s2.
Proof.
  intros zone s1 s2 t (L1 & V1 & D1 & U1) (L2 & V2 & D2 & U2) N1 N2 E1 E2. unfold same_event, local_stamp. cbn [line_text] in E1, E2.
  destruct (double_of (cp_cps (sh_cp s1))) as [c1|]; [|discriminate E1]. destruct (double_of (cp_cps (sh_cp s2))) as [c2|]; [|discriminate E2].
  pose proof (proj1 (abs_time_err _ _ (U1 c1 eq_refl))) as B1. pose proof (proj1 (abs_time_err _ _ (U2 c2 eq_refl))) as B2.
  destruct (abs_time _ (sh_ts s1)) as [a1 x1]. destruct (abs_time _ (sh_ts s2)) as [a2 x2]. cbn [snd] in B1, B2.
  destruct (time_string zone a1) as [t1|] eqn:T1; [|discriminate E1]. destruct (time_string zone a2) as [t2|] eqn:T2; [|discriminate E2].
  destruct (nth_error logLevelNames (Z.to_nat (sh_level s1))) as [n1|] eqn:G1; [|discriminate E1]. destruct (nth_error logLevelNames (Z.to_nat (sh_level s2))) as [n2|] eqn:G2; [|discriminate E2].
  apply some_inj in E1. apply some_inj in E2. rewrite <- E2 in E1. clear t E2. rewrite !nanos_padded in E1.
  change (chars ".") with [46] in E1. change (chars " ") with [32] in E1. change (chars ":") with [58] in E1. change (chars "[") with [91] in E1. change (chars "]: ") with [93; 58; 32] in E1. cbn [app] in E1.
  destruct (time_cut _ _ _ _ _ _ _ T1 T2 E1) as [-> E]. apply cut_num in E; [|lia..]. destruct E as [-> E].
  apply cut in E; [|assumption..]. destruct E as [EF E]. apply cut_dec in E; [|lia..]. destruct E as [EL E].
  destruct (levels_cut _ _ _ _ _ _ G1 G2 E) as [EV E']. apply cut_dec in E'; [|lia..]. destruct E' as [ET E']. injection E' as E'. apply app_inv_tail in E'.
  splits; auto. lia.
Qed.
Print Assumptions C63_partial.

(** A file name with a colon. *)
Definition colon_1 : shown := Shown cp62 0 5000 0 (chars "a") 1 1 (chars "x:2 ERROR[0]: y").
Definition colon_2 : shown := Shown cp62 0 5000 0 (chars "a:1 ERROR[0]: x") 2 1 (chars "y").

Lemma colon_placed : placed colon_1 /\ placed colon_2.
Proof.
  assert (U : forall cps, double_of (cp_cps cp62) = Some cps -> usual (TimeBase 1000 200000 cps) 5000).
  { intros cps E. lazy in E. injection E as <-. unfold usual, elapsed. cbn [tb_cps tb_rdtsc]. split; [reflexivity|]. split; [lia|]. apply Qle_bool_iff. lazy. reflexivity. }
  split; (split; [cbn; lia|split; [cbn; lia|split; [cbn; lia|exact U]]]).
Qed.

Theorem C63_refuted : ~ C63_full.
Proof.
  intro H. destruct colon_placed as [P1 P2].
  destruct (H (fun _ => 3600) colon_1 colon_2 (chars "1970-01-03 08:33:20.000001667 a:1 ERROR[0]: x:2 ERROR[0]: y" ++ [13; 10]) P1 P2) as (_ & E & _); [lazy; reflexivity..|].
  discriminate E.
Qed.
Print Assumptions C63_refuted.

Example C63_instance : line_text (fun _ => -18000) (LMsg (Shown (Checkpoint 1000 1700000000 [0; 0; 0; 0; 163; 225; 225; 65]) 12 1000001000 27 (chars "src/Server.cc") 118 3 (chars "ready: 16 threads")))
  = Some (chars "2023-11-14 17:13:20.416666667 src/Server.cc:118 NOTICE[27]: ready: 16 threads" ++ [13; 10]).
Proof. lazy. reflexivity. Qed.

(** A level without a name: logLevelNames is read out of its bounds. *)
Example C63_no_name : line_text (fun _ => 0) (LMsg (Shown cp62 0 5000 3 (chars "a.cc") 7 5 (chars "x"))) = None.
Proof. lazy. reflexivity. Qed.
