(** C49: the dictionary of the generated code, from the statements of a program
    to what the decompressor uses. *)
From Coq Require Import String.
From Verif Require Import Base BaseProofs Packer PackerProofs LogHeader LogHeaderProofs Chars Fmt FmtProofs MicroCode Args ArgsProofs Printf Decode DecodeProofs
  RingProofs Encoder Wire EncoderProofs Decoder FileSpec DecoderProofs MetaDict Preproc PreprocProofs FmtLax FrontFmt FrontFmtProofs Prop_FrontFmt Prop_Args Regex MicroCodeProofs PreprocLit Prop_Message GenCode GenSpec GenProofs GenRecord GenMessage Prop_MetaDict Prop_Preproc Prop_GenCode GenDict.
Ltac Zify.zify_post_hook ::= Z.div_mod_to_equations.

(** C49 as claimed: what a program writes in front of its messages makes a new
    decompressor use, for every statement, the description of that statement. *)
Definition describes_stmt (s : stmt) (mc : microcode) : Prop :=
  severity (st_level s) (mc_level mc) /\ mc_line mc = st_line s /\ denotes (st_file s) (mc_file mc) /\
  denotes (st_fmt s) (meta_text mc).

(** The entry [e] is what C48 prints messages with. *)
Definition selects (lim : Z) (units : list (list stmt)) (st : metas) (s : stmt) : Prop :=
  exists e k p, gen_entry s = Some e /\ number units s = Some k /\ nth_error (ms_at st) k = Some p /\
    microcode_at lim (ms_mem st) p = Some (mc_of e) /\ describes_stmt s (mc_of e).

Definition C49_full : Prop := forall units es enc rdtsc unix cps enc' lim cp0 rest,
  program_dict units = Some es -> Forall (fun s => 0 <= st_line s < 2 ^ 31) (concat units) ->
  mem_bytes (e_mem enc) -> e_wp enc <= e_hi enc <= e_end enc ->
  0 <= rdtsc < 2 ^ 64 -> 0 <= unix < 2 ^ 64 -> length cps = 8%nat -> Forall is_byte cps ->
  insertCheckpointDict enc rdtsc unix cps es = (enc', true) ->
  let n := e_wp enc' - e_wp enc in
  n <= lim -> n < 2 ^ 32 ->
  exists st, read_dictionary lim true cp0 fresh_metas (File (load (e_mem enc') (e_wp enc) (Z.to_nat n) ++ rest) false)
             = Some (File rest false, Checkpoint rdtsc unix cps, st, true) /\
    forall s, In s (concat units) -> selects lim units st s.

(** ** What is written *)

Lemma bare_size : forall es D, map fst D = map mc_of es -> zlen (metas_bytes D) = zlen (metas_bytes (bare es)).
Proof. intros es D H. apply same_size. rewrite H. unfold bare. now rewrite map_map. Qed.

Lemma metas_count : forall D, zlen D <= zlen (metas_bytes D).
Proof.
  induction D as [|x D IH]; [cbn; lia|]. rewrite metas_cons, zlen_cons, zlen_app, meta_zlen.
  pose proof (zlen_nonneg _ (mc_file (fst x))). pose proof (zlen_nonneg _ (frags_bytes (snd x) (mc_frags (fst x)))). lia.
Qed.

(** The checkpoint and the dictionary are written completely, in the room there
    is, or the position stays and the function reports failure.  With a dictionary
    one byte has to remain free. *)
Theorem C49_written : forall enc rdtsc unix cps es enc' ok,
  mem_bytes (e_mem enc) -> e_wp enc <= e_hi enc <= e_end enc ->
  0 <= rdtsc < 2 ^ 64 -> 0 <= unix < 2 ^ 64 -> length cps = 8%nat -> Forall is_byte cps ->
  Forall entry_fits es -> zlen (metas_bytes (bare es)) < 2 ^ 32 ->
  insertCheckpointDict enc rdtsc unix cps es = (enc', ok) ->
  let size := 33 + zlen (metas_bytes (bare es)) in
  (ok = true <-> e_wp enc + size + (if es then 0 else 1) <= e_end enc) /\
  e_base enc' = e_base enc /\ e_end enc' = e_end enc /\ e_wp enc' <= e_hi enc' <= e_end enc' /\
  (forall y, y < e_wp enc \/ e_end enc <= y -> e_mem enc' y = e_mem enc y) /\ mem_bytes (e_mem enc') /\
  (ok = false -> e_wp enc' = e_wp enc) /\
  (ok = true -> e_wp enc' = e_wp enc + size /\
     exists junk D, map fst D = map mc_of es /\ execution_ok junk (Checkpoint rdtsc unix cps) D /\
       load (e_mem enc') (e_wp enc) (Z.to_nat size) = execution_bytes junk (Checkpoint rdtsc unix cps) D).
Proof.
  intros enc rdtsc unix cps es enc' ok Hm He Hr Hu Hc Hb HF HS E size.
  pose proof (zlen_nonneg _ (metas_bytes (bare es))) as NN.
  assert (Esp : e_space enc = e_end enc - e_wp enc) by reflexivity.
  unfold insertCheckpointDict in E. destruct (insertCheckpoint enc rdtsc unix cps) as [e1|] eqn:E1.
  2: { assert (enc' = enc /\ ok = false) as [-> ->] by (split; congruence).
       unfold insertCheckpoint in E1. cbv zeta in E1. destruct (e_space enc <? 33) eqn:E8; [|discriminate E1].
       splits; auto; try lia; try congruence. split; [discriminate|]. destruct es; lia. }
  destruct (checkpoint_spec enc rdtsc unix cps e1 Hm He Hc Hb E1) as (S33 & junk & Hj & LB & W1 & ZB & B1 & EE1 & H1 & H2 & F1 & M1).
  rewrite ZB in W1. rewrite EE1 in *.
  destruct (write_dict_spec es (e_mem e1) (e_wp e1) (e_end enc) M1 HF) as (m & ob & ED & MD & FD & CD). rewrite ED in E.
  assert (OUT : forall y, y < e_wp enc \/ e_end enc <= y -> m y = e_mem enc y).
  { intros y Hy. rewrite FD by lia. apply F1. lia. }
  destruct ob as [b|].
  2: { destruct CD as [CD1 CD2].
       assert (EN : enc' = Enc m (e_base e1) (e_wp e1 - 33) (e_end enc) (e_ext e1) (e_end enc) /\ ok = false) by (split; congruence).
       destruct EN as [-> ->]. cbn [e_mem e_base e_wp e_end e_hi]. splits; auto; try lia; try congruence.
       split; [discriminate|]. destruct es; [congruence|lia]. }
  destruct CD as (-> & CD2 & D & DM & WD & WF & WM).
  set (b := e_wp e1 + zlen (metas_bytes (bare es))) in *.
  pose proof (bare_size es D DM) as SZ.
  assert (EN : enc' = Enc (store (store m (e_wp e1 - 33 + 25) (le_bytes 4 (b - e_wp e1))) (e_wp e1 - 33 + 29) (le_bytes 4 (zlen es)))
     (e_base e1) b (e_end enc) (e_ext e1) (Z.max (e_hi e1) b) /\ ok = true) by (split; congruence).
  clear E ED. destruct EN as [-> ->]. cbn [e_mem e_base e_wp e_end e_hi].
  assert (ROOM : b + (if es then 0 else 1) <= e_end enc).
  { destruct es as [|x es']; [subst b; cbn [bare map]; change (zlen (metas_bytes [])) with 0; lia|]. specialize (CD2 ltac:(discriminate)). lia. }
  assert (RB : b <= e_end enc) by (destruct es; lia).
  assert (ZD : zlen D = zlen es).
  { pose proof (f_equal (@length _) DM) as Q. rewrite !map_length in Q. unfold zlen. lia. }
  pose proof (metas_count D) as CNT.
  assert (SB : b = e_wp enc + size) by (subst b size; lia).
  set (m1 := store m (e_wp e1 - 33 + 25) (le_bytes 4 (b - e_wp e1))).
  set (m2 := store m1 (e_wp e1 - 33 + 29) (le_bytes 4 (zlen es))).
  assert (P1 : forall y, y < e_wp enc + 25 \/ e_wp enc + 33 <= y -> m2 y = m y).
  { intros y Hy. unfold m2, m1. rewrite !store_outside by (rewrite le_bytes_zlen; lia). reflexivity. }
  split; [split; [intros _; rewrite <- SB; exact ROOM|reflexivity]|]. split; [exact B1|]. split; [reflexivity|]. split; [lia|].
  split; [intros y Hy; rewrite P1 by lia; now apply OUT|]. split; [|split; [congruence|]].
  - unfold m2, m1. repeat (apply store_bytes; [|apply le_bytes_is_byte]). exact MD.
  - intros _. split; [lia|]. exists junk, D. split; [exact DM|]. split.
    + unfold execution_ok. cbn [cp_rdtsc cp_unixTime cp_cps]. splits; auto; try lia.
      rewrite DM. apply Forall_map. eapply Forall_impl; [|exact HF]. intro. apply entry_wf.
    + set (X := execution_bytes junk (Checkpoint rdtsc unix cps) D).
      set (hd25 := [3 + 4 * junk] ++ le_bytes 8 rdtsc ++ le_bytes 8 unix ++ cps).
      assert (Zc : zlen cps = 8) by (unfold zlen; lia).
      assert (Z25 : zlen hd25 = 25).
      { unfold hd25. rewrite !zlen_app, !le_bytes_zlen, Zc. reflexivity. }
      assert (XE : X = hd25 ++ le_bytes 4 (zlen (metas_bytes D)) ++ le_bytes 4 (zlen D) ++ metas_bytes D).
      { unfold X, execution_bytes, hd25. cbn [cp_rdtsc cp_unixTime cp_cps]. rewrite <- !app_assoc. reflexivity. }
      assert (ZX : zlen X = size).
      { rewrite XE, !zlen_app, !le_bytes_zlen, Z25. lia. }
      replace (Z.to_nat size) with (length X) by (unfold zlen in ZX; lia).
      change (at_ m2 (e_wp enc) X). rewrite XE. apply app_at; [|apply app_at; [|apply app_at]].
      * apply (at_frame (e_mem e1)).
        -- assert (CB : checkpoint_bytes junk rdtsc unix cps = hd25 ++ le_bytes 4 0 ++ le_bytes 4 0).
           { unfold checkpoint_bytes, hd25. rewrite <- !app_assoc. reflexivity. }
           rewrite CB in LB. now apply at_app in LB.
        -- intros y Hy. rewrite Z25 in Hy. rewrite P1 by lia. rewrite FD by lia. reflexivity.
      * rewrite Z25. apply (at_frame m1).
        -- unfold m1. replace (e_wp e1 - 33 + 25) with (e_wp enc + 25) by lia. replace (b - e_wp e1) with (zlen (metas_bytes D)) by lia. apply load_store_same.
        -- intros y Hy. rewrite le_bytes_zlen in Hy. unfold m2. apply store_outside. rewrite le_bytes_zlen. lia.
      * rewrite Z25, le_bytes_zlen, ZD. replace (e_wp enc + 25 + Z.of_nat 4) with (e_wp e1 - 33 + 29) by lia. apply load_store_same.
      * rewrite Z25, !le_bytes_zlen. replace (e_wp enc + 25 + Z.of_nat 4 + Z.of_nat 4) with (e_wp e1) by lia.
        apply (at_frame m); auto. intros y Hy. apply P1. lia.
Qed.
Print Assumptions C49_written.

(** ** Numbers *)

Lemma position_some : forall k l, In k l -> exists n, position k l = Some n /\ nth_error l n = Some k.
Proof.
  intros k l. induction l as [|x l IH]; intros H; [destruct H|]. cbn [position].
  destruct (zlist_eqb k x) eqn:E; [apply zlist_eqb_eq in E; subst x; exists O; auto|].
  destruct H as [->|H]; [assert (zlist_eqb k k = true) by (apply zlist_eqb_spec; reflexivity); congruence|].
  destruct (IH H) as (n & -> & Hn). exists (S n). auto.
Qed.

Lemma insert_in : forall k x l, In x (insert_key k l) <-> x = k \/ In x l.
Proof.
  intros k x l. induction l as [|y l IH]; cbn [insert_key]; [cbn; intuition|].
  destruct (str_lt k y); [cbn; intuition|]. destruct (zlist_eqb k y) eqn:E; [apply zlist_eqb_eq in E; subst y; cbn; intuition congruence|].
  cbn [In]. rewrite IH. intuition.
Qed.

Lemma sorted_in : forall t x, In x (sorted_keys t) <-> In x (map fst t).
Proof.
  intros t x. unfold sorted_keys. induction (map fst t) as [|k l IH]; [reflexivity|]. cbn [fold_right In]. rewrite insert_in, IH. intuition.
Qed.

Lemma lookup_in : forall k t s, lookup k t = Some s -> In k (map fst t).
Proof.
  intros k t s. induction t as [|[k' s'] t IH]; cbn [lookup map fst In]; [discriminate|].
  destruct (zlist_eqb k k') eqn:E; [apply zlist_eqb_eq in E; auto|auto].
Qed.

Lemma number_some : forall units s, In s (concat units) -> key s <> invalid_key ->
  exists n, number units s = Some n /\ nth_error (ids units) n = Some (key s).
Proof.
  intros units s Hin HK. destruct (merge_lookup units s Hin HK) as (e & He & _ & _). unfold number. fold (key s).
  apply position_some. unfold ids. apply filter_In. split; [apply sorted_in; eapply lookup_in; exact He|].
  destruct (zlist_eqb (key s) invalid_key) eqn:E; [apply zlist_eqb_eq in E; congruence|reflexivity].
Qed.

Lemma all_some_nth : forall A (l : list (option A)) r n x, all_some l = Some r -> nth_error l n = Some x ->
  exists y, x = Some y /\ nth_error r n = Some y.
Proof.
  intros A l. induction l as [|o l IH]; intros r n x H N; [destruct n; discriminate N|]. cbn [all_some] in H.
  destruct o as [y|]; [|discriminate H]. destruct (all_some l) as [r'|] eqn:E; [|discriminate H]. cbn [option_map] in H. apply some_inj in H. subst r.
  destruct n as [|n]; cbn [nth_error] in *; [exists y; split; congruence|]. exact (IH _ _ _ eq_refl N).
Qed.

(** Its own entry. *)
Lemma number_entry : forall units es s, program_dict units = Some es -> In s (concat units) -> key s <> invalid_key ->
  (forall a, In a (concat units) -> key a = key s -> a = s) ->
  exists n e, number units s = Some n /\ gen_entry s = Some e /\ nth_error es n = Some e.
Proof.
  intros units es s HP Hin HK HU. destruct (number_some units s Hin HK) as (n & Hn & HI).
  destruct (merge_lookup units s Hin HK) as (s' & HL & HI' & HK'). apply HU in HK'; auto. subst s'.
  unfold program_dict, entries in HP. rewrite map_map in HP.
  destruct (all_some_nth _ _ _ n (gen_entry s) HP) as (e & Ee & Ne).
  - rewrite (map_nth_error _ _ _ HI), HL. reflexivity.
  - exists n, e. auto.
Qed.

Lemma denotes_app : forall a x b y, denotes a x -> denotes b y -> denotes (a ++ b) (x ++ y).
Proof. intros a x b y H K. induction H; cbn [app]; [exact K|constructor; auto|constructor; auto]. Qed.

Lemma entry_describes : forall s e, gen_entry s = Some e -> describes_stmt s (mc_of e).
Proof.
  intros s e H. unfold gen_entry in H. destruct (splitAndParse (st_fmt s)) as [fs|] eqn:E; [|discriminate H].
  destruct (all_some (map gen_frag fs)) as [dfs|] eqn:ED; [|discriminate H].
  destruct (literal (st_file s)) as [file|] eqn:EF; [|discriminate H].
  destruct (level_number (st_level s)) as [lv|] eqn:EL; [|discriminate H]. apply some_inj in H. subst e.
  unfold describes_stmt, mc_of. cbn [mc_level mc_line mc_file de_level de_line de_file]. splits; auto.
  - now apply level_number_right.
  - now apply literal_denotes.
  - unfold meta_text. cbn [mc_frags de_frags]. rewrite map_map. apply split_cover in E. rewrite <- E. clear E EF EL.
    revert dfs ED. induction fs as [|f fs IH]; intros dfs ED; cbn [map all_some] in ED.
    + apply some_inj in ED. subst dfs. constructor.
    + destruct (gen_frag f) as [d|] eqn:Ef; [|discriminate ED].
      destruct (all_some (map gen_frag fs)) as [ds|]; [|discriminate ED]. cbn [option_map] in ED. apply some_inj in ED. subst dfs.
      cbn [map concat]. apply denotes_app; [|now apply IH].
      unfold gen_frag in Ef. destruct (literal (ft_sub f)) as [t|] eqn:El; [|discriminate Ef]. apply some_inj in Ef. subst d.
      now apply literal_denotes.
Qed.

(** ** C49 where it holds: no two statements share an identifier, and the
    constants fit in their fields. *)
Theorem C49_partial : forall units es enc rdtsc unix cps enc' lim cp0 rest,
  program_dict units = Some es -> Forall (fun s => 0 <= st_line s < 2 ^ 31) (concat units) ->
  mem_bytes (e_mem enc) -> e_wp enc <= e_hi enc <= e_end enc ->
  0 <= rdtsc < 2 ^ 64 -> 0 <= unix < 2 ^ 64 -> length cps = 8%nat -> Forall is_byte cps ->
  insertCheckpointDict enc rdtsc unix cps es = (enc', true) ->
  let n := e_wp enc' - e_wp enc in
  n <= lim -> n < 2 ^ 32 ->
  Forall entry_fits es -> Forall (fun s => Forall (fun c => 0 <= c) (st_fmt s ++ st_file s)) (concat units) ->
  (forall a b, In a (concat units) -> In b (concat units) -> key a = key b -> a = b) ->
  zlen (metas_bytes (bare es)) < 2 ^ 32 ->
  exists st, read_dictionary lim true cp0 fresh_metas (File (load (e_mem enc') (e_wp enc) (Z.to_nat n) ++ rest) false)
             = Some (File rest false, Checkpoint rdtsc unix cps, st, true) /\
    forall s, In s (concat units) -> selects lim units st s.
Proof.
  intros units es enc rdtsc unix cps enc' lim cp0 rest HP HN Hm He Hr Hu Hc Hb E n L L32 HF HB HK HS.
  destruct (C49_written enc rdtsc unix cps es enc' true Hm He Hr Hu Hc Hb HF HS E) as (_ & _ & _ & _ & _ & _ & _ & C).
  destruct (C eq_refl) as (WP & junk & D & DM & OK & LD).
  pose proof (bare_size es D DM) as SZ. pose proof (zlen_nonneg _ (metas_bytes D)).
  destruct (C41_partial lim junk cp0 (Checkpoint rdtsc unix cps) [] D fresh_metas rest (fresh_holds lim) OK) as (st & D' & R & DD & (US & _)).
  { change (zlen (metas_bytes [])) with 0. subst n. lia. }
  { now left. }
  exists st. replace n with (33 + zlen (metas_bytes (bare es))) by (subst n; lia). rewrite LD, R. split; [reflexivity|].
  intros s Hin. rewrite Forall_forall in HN, HB.
  destruct (number_entry units es s HP Hin) as (k & e & N1 & N2 & N3).
  { apply key_valid; auto. apply HN. exact Hin. }
  { intros a Ha Hka. apply HK; auto. }
  destruct US as [US _].
  assert (Q : nth_error (map (microcode_at lim (ms_mem st)) (ms_at st)) k = Some (Some (mc_of e))).
  { rewrite US, DD, DM, map_map. rewrite (map_nth_error (fun x => Some (mc_of x)) _ _ N3). reflexivity. }
  destruct (nth_error (ms_at st) k) as [p|] eqn:EP.
  - rewrite (map_nth_error _ _ _ EP) in Q. exists e, k, p. apply some_inj in Q. splits; auto. now apply entry_describes.
  - exfalso. apply nth_error_None in EP. assert (nth_error (map (microcode_at lim (ms_mem st)) (ms_at st)) k = None) by (apply nth_error_None; rewrite map_length; exact EP).
    congruence.
Qed.
Print Assumptions C49_partial.

(** From the program to the printed line: a message of a statement, printed with
    the description the decompressor found in the dictionary. *)
Theorem C49_message_partial : forall lim units st s widen conv qs fmt args text,
  selects lim units st s -> stmt_defined widen conv qs s fmt args text ->
  natural qs = true -> stored_ok qs = true -> Forall2 harmless (params qs) args ->
  nonstrings qs <= 255 -> zlen (convs qs) <= 255 ->
  exists k p mc, number units s = Some k /\ nth_error (ms_at st) k = Some p /\ microcode_at lim (ms_mem st) p = Some mc /\
    describes_stmt s mc /\
    gen_way widen s args (fun _ _ m' o' lim' e' => exists pushed, print_message conv mc m' o' lim' = Some (text, pushed, e')).
Proof.
  intros lim units st s widen conv qs fmt args text (e & k & p & GE & N & P & M & DS) HD Hn Hs HH H1 H2.
  exists k, p, (mc_of e). splits; auto.
  pose proof (C48_partial widen conv qs s fmt args text HD Hn Hs HH H1 H2) as W.
  intros m q id ts mout o. destruct (W m q id ts mout o) as (fs & e' & args' & r & A1 & A2 & A3 & A4 & A5 & A6).
  assert (e' = e) by congruence. subst e'. exists fs, e, args', r. splits; auto.
Qed.
Print Assumptions C49_message_partial.

(** ** Counterexamples *)

Definition enc_demo (room : Z) : enc := Enc (fun a => (a * 37 + 11) mod 256) 0 0 room None 0.
Definition cps_demo : list Z := [0; 0; 0; 0; 0; 0; 240; 65].
Definition written (units : list (list stmt)) (room : Z) : option (enc * bool) :=
  option_map (insertCheckpointDict (enc_demo room) 1000 1700000000 cps_demo) (program_dict units).

Definition read_back (units : list (list stmt)) (room : Z) : option (bool * list (option microcode)) :=
  match written units room with
  | Some (e, true) =>
    match read_dictionary 4096 true cp_demo fresh_metas (File (load (e_mem e) 0 (Z.to_nat (e_wp e)) ++ [7; 7; 7]) false) with
    | Some (File [7; 7; 7] false, _, st, ok) => Some (ok, map (microcode_at 4096 (ms_mem st)) (ms_at st))
    | _ => None
    end
  | _ => None
  end.

Lemma demo_bytes : forall room, mem_bytes (e_mem (enc_demo room)).
Proof. intros room y. cbn [enc_demo e_mem]. unfold is_byte. lia. Qed.

Lemma cps_bytes : Forall is_byte cps_demo.
Proof. repeat constructor; unfold is_byte; lia. Qed.

(** What C49 would say about [units] if all the conditions are met. *)
Lemma full_demo : forall units room, C49_full ->
  match program_dict units with
  | None => False
  | Some es => snd (insertCheckpointDict (enc_demo room) 1000 1700000000 cps_demo es) = true /\
               e_wp (fst (insertCheckpointDict (enc_demo room) 1000 1700000000 cps_demo es)) <= 4096
  end -> 0 <= room -> forallb (fun s => (0 <=? st_line s) && (st_line s <? 2 ^ 31)) (concat units) = true ->
  exists st es, program_dict units = Some es /\
    read_dictionary 4096 true cp_demo fresh_metas
      (File (load (e_mem (fst (insertCheckpointDict (enc_demo room) 1000 1700000000 cps_demo es))) 0
         (Z.to_nat (e_wp (fst (insertCheckpointDict (enc_demo room) 1000 1700000000 cps_demo es)))) ++ []) false)
      = Some (File [] false, Checkpoint 1000 1700000000 cps_demo, st, true) /\
    forall s, In s (concat units) -> selects 4096 units st s.
Proof.
  intros units room F H Hr HL. destruct (program_dict units) as [es|] eqn:E; [|destruct H]. destruct H as [H1 H2].
  destruct (insertCheckpointDict (enc_demo room) 1000 1700000000 cps_demo es) as [e' ok] eqn:EI. cbn [fst snd] in H1, H2. subst ok.
  destruct (F units es (enc_demo room) 1000 1700000000 cps_demo e' 4096 cp_demo [] E) as (st & R & S); auto using demo_bytes, cps_bytes;
    try (cbn [enc_demo e_wp e_hi e_end]; lia).
  - rewrite Forall_forall. rewrite forallb_forall in HL. intros s Hs. specialize (HL s Hs). lia.
  - cbn [enc_demo e_wp] in R. rewrite Z.sub_0_r in R. exists st, es. rewrite EI. cbn [fst]. auto.
Qed.

(** Two statements on one line that differ in the severity: one number. *)
Theorem C49_refuted_level : ~ C49_full.
Proof.
  intro F. destruct (full_demo w_level 200 F) as (st & es & E & R & S); try (vm_compute; intuition congruence).
  vm_compute in E. apply some_inj in E. subst es.
  assert (Q : exists m a f, st = Metas m a [0] f /\ microcode_at 4096 m 0 = Some (MicroCode 0 1 4 7 (chars "a.cc") [Frag NONE false false (chars "Hello")])).
  { match type of R with ?L = _ => assert (T : match L with Some (_, _, st, _) => ms_at st = [0] /\ microcode_at 4096 (ms_mem st) 0
      = Some (MicroCode 0 1 4 7 (chars "a.cc") [Frag NONE false false (chars "Hello")]) | None => False end) by (vm_compute; auto) end.
    rewrite R in T. destruct st as [m en at' f]. cbn [ms_at ms_mem] in T. destruct T as [T1 T2]. subst. eauto. }
  destruct Q as (m & a & f & -> & Q).
  destruct (S (Stmt (chars "ERROR") (chars "Hello") (chars "a.cc") 7) ltac:(right; left; reflexivity)) as (e & k & p & G & N & P & M & _).
  vm_compute in G. apply some_inj in G. subst e.
  vm_compute in N. apply some_inj in N. subst k. cbn [ms_at nth_error] in P. apply some_inj in P. subst p. cbn [ms_mem] in M.
  rewrite Q in M. vm_compute in M. discriminate M.
Qed.
Print Assumptions C49_refuted_level.

(** A file whose name has to be escaped in a string literal: filenameLength is
    the length of the escaped name, and the decompressor rejects the dictionary. *)
Definition w_escape : list (list stmt) := [[Stmt (chars "NOTICE") (chars "Hi") (chars "a\\b.cc") 7]].

Theorem C49_refuted_escape : ~ C49_full.
Proof.
  intro F. destruct (full_demo w_escape 200 F) as (st & es & E & R & S); try (vm_compute; intuition congruence).
  vm_compute in E. apply some_inj in E. subst es.
  match type of R with ?L = _ => assert (T : match L with Some (_, _, _, ok) => ok = false | None => False end) by (vm_compute; auto) end.
  rewrite R in T. discriminate T.
Qed.
Print Assumptions C49_refuted_escape.

(** ** Examples *)

(** Two files, five statements, one of them in a header and so in both. *)
Definition u49 : list (list stmt) :=
  [[Stmt (chars "NOTICE") (chars "Sent %d of %-*s") (chars "net.cc") 120; Stmt (chars "DEBUG") (chars "%p|%.3lf\n") (chars "net.cc") 9;
    Stmt (chars "ERROR") (chars "lost %hhu%%") (chars "net.h") 30];
   [Stmt (chars "ERROR") (chars "lost %hhu%%") (chars "net.h") 30; Stmt (chars "WARNING") (chars "closed") (chars "main.cc") 70000]].

Example C49_numbers : map (number u49) (concat u49) = [Some 1; Some 0; Some 3; Some 3; Some 2]%nat.
Proof. vm_compute. reflexivity. Qed.

Example C49_room : match program_dict u49 with Some es => zlen (metas_bytes (bare es)) = 129 | None => False end /\
  option_map snd (written u49 163) = Some true /\ option_map snd (written u49 162) = Some false /\
  option_map (fun x => e_wp (fst x)) (written u49 162) = Some 0 /\ option_map (fun x => e_wp (fst x)) (written u49 163) = Some 162.
Proof. vm_compute. auto. Qed.

Example C49_read : option_map fst (read_back u49 163) = Some true /\
  option_map (fun x => map (option_map meta_text) (snd x)) (read_back u49 163)
  = Some (map (fun s => Some (chars s)) [("%p|%.3lf" ++ String (Ascii.ascii_of_nat 10) EmptyString)%string; "Sent %d of %-*s"%string; "closed"%string; "lost %hhu%%"%string]).
Proof. vm_compute. auto. Qed.

(** The conditions of [C49_partial] can be met. *)
Example C49_conditions : exists es, program_dict u49 = Some es /\ Forall entry_fits es /\
  Forall (fun s => 0 <= st_line s < 2 ^ 31) (concat u49) /\
  Forall (fun s => Forall (fun c => 0 <= c) (st_fmt s ++ st_file s)) (concat u49) /\
  (forall a b, In a (concat u49) -> In b (concat u49) -> key a = key b -> a = b) /\ zlen (metas_bytes (bare es)) < 2 ^ 32.
Proof.
  eexists. split; [vm_compute; reflexivity|]. split; [|split; [|split; [|split]]].
  - repeat constructor; unfold entry_fits, dfrag_fits, nonzero_byte; cbn [de_level de_line de_frags de_file de_fileLen df_text]; try lia; try reflexivity.
  - repeat constructor; cbn [st_line]; lia.
  - apply Forall_forall. intros s Hs. apply Forall_forall. intros c Hc.
    assert (T : forallb (fun s => forallb (fun c => 0 <=? c) (st_fmt s ++ st_file s)) (concat u49) = true) by (vm_compute; reflexivity).
    rewrite forallb_forall in T. specialize (T s Hs). rewrite forallb_forall in T. specialize (T c Hc). lia.
  - intros a b Ha Hb E. cbn [concat u49 app In] in Ha, Hb.
    repeat match goal with H : _ \/ _ |- _ => destruct H as [H|H] | H : False |- _ => destruct H end; subst a b; try reflexivity;
    exfalso; vm_compute in E; discriminate E.
  - vm_compute. reflexivity.
Qed.
