(** C75: decompressing the log of a program with its generated code and an
    aggregation function for one of its statements: every message is printed, and
    the function is called once for each message of the statement, in the order of
    the file, with the arguments that were logged. *)
From Verif Require Import Base BaseProofs Packer PackerProofs LogHeader LogHeaderProofs Chars Fmt FmtProofs MicroCode Args ArgsProofs Printf Decode DecodeProofs
  RingProofs Encoder Wire EncoderProofs Decoder FileSpec DecoderProofs MetaDict Preproc PreprocProofs FmtLax FrontFmt FrontFmtProofs Prop_FrontFmt Prop_Args Regex MicroCodeProofs
  PreprocLit Prop_Message GenCode GenSpec GenProofs GenRecord GenMessage Prop_MetaDict Prop_Preproc Prop_GenCode GenDict Prop_GenDict
  MicroMem MemDecoder PreEncoder PreEncoderProofs PreFile Prop_PreEnd Aggregate AggregateProofs.
Ltac Zify.zify_post_hook ::= Z.div_mod_to_equations.

(** [vs] is as good as the arguments of the call [c]: printf prints the same for
    them, whatever it makes of values. *)
Definition passed (widen : list Z -> list Z) (c : call) (vs : list va) : Prop :=
  forall conv text, stmt_defined widen conv (ca_pieces c) (ca_stmt c) (ca_fmt c) (ca_args c) text ->
    printf conv (ca_fmt c) vs = Some text.

(** The function is called for the message [c] with its format and arguments
    exactly if [c] is an execution of the statement with the number [target]. *)
Definition calls_for (widen : list Z -> list Z) (units : list (list stmt)) (target : Z) (c : call) (called : option (list Z * list va)) : Prop :=
  match called with
  | Some (fmt, vs) => number units (ca_stmt c) = Some (Z.to_nat target) /\ fmt = ca_fmt c /\ passed widen c vs
  | None => number units (ca_stmt c) <> Some (Z.to_nat target)
  end.

Definition aggregates (widen : list Z -> list Z) (cp : checkpoint) (units : list (list stmt)) (target : Z) (x : Z * call) (ev : aevent) : Prop :=
  exists dm called, ev = AvMsg cp dm called /\ shows cp units x (line_of (EvMsg cp dm)) /\ calls_for widen units target (snd x) called.

(** Wherever malloc puts the dictionary: decompression succeeds, every message is
    counted, and [P] holds of what happens. *)
Definition aggregated (lim : Z) (conv : rconv -> list Z) (units : list (list stmt)) (target : Z) (bytes : list Z) (P : list aevent -> Prop) : Prop :=
  forall m0, exists d d' evs, md_open_file lim (new_mdecoder m0) bytes = Some (d, true) /\
    ag_internalDecompressUnordered lim conv units target true d = Some (d', evs, true) /\ md_printed d' = zlen evs /\ P evs.

(** C75 as claimed. *)
Definition C75_full : Prop := forall widen conv units es e rdtsc unix cps e1 bs e2 ks pad lim target,
  program_dict units = Some es -> Forall (fun s => 0 <= st_line s < 2 ^ 31) (concat units) ->
  enc_ready e -> 0 <= rdtsc < 2 ^ 64 -> 0 <= unix < 2 ^ 64 -> length cps = 8%nat -> Forall is_byte cps ->
  insertCheckpointDict e rdtsc unix cps es = (e1, true) ->
  Forall (fun b => Forall (call_defined widen conv units) (ba_calls b)) bs ->
  encoded widen units e1 bs e2 ks -> Forall pad_byte pad -> e_wp e2 - e_wp e <= lim -> 0 <= target < 2 ^ 32 ->
  aggregated lim conv units target (load (e_mem e2) (e_wp e) (Z.to_nat (e_wp e2 - e_wp e)) ++ pad)
    (Forall2 (aggregates widen (Checkpoint rdtsc unix cps) units target) (taken bs ks)).

(** The restrictions of C50: those of C61 without the ones on the widths and
    precisions that are arguments, and on the number of conversions. *)
Definition callable (c : call) : Prop :=
  natural (ca_pieces c) = true /\ stored_ok (ca_pieces c) = true /\ Forall2 typed (params (ca_pieces c)) (ca_args c).

(** ** One message *)

Lemma unpack_print : forall conv fmt types m o lim t e, gen_decompress conv fmt types m o lim = Some (t, e) ->
  exists vs, gen_unpack types m o lim = Some (vs, e) /\ printf conv fmt vs = Some t.
Proof.
  intros conv fmt types m o lim t e H. unfold gen_decompress, gen_unpack in *. cbv zeta in H.
  destruct (unpack_prims _ _ _ _ _ _) as [[l p]|]; [|discriminate H].
  destruct (find_strs _ _ _ _ _) as [[l' e']|]; [|discriminate H].
  destruct (all_some _) as [vs|]; [|discriminate H].
  destruct (printf conv fmt vs) as [t'|] eqn:E; [|discriminate H]. exists vs. split; congruence.
Qed.

Definition asked : Type := (rconv -> list Z) * list Z.

(** The generated function unpacks [body] to arguments printf prints [text] for. *)
Definition unpacks (g : genfn) (body : list Z) (i : asked) : Prop :=
  forall m o lim, load m o (length body) = body -> o + zlen body <= lim ->
  exists vs, gen_unpack (gf_types g) m o lim = Some (vs, o + zlen body) /\ printf (fst i) (gf_fmt g) vs = Some (snd i).

Definition defined_as (widen : list Z -> list Z) (c : call) (i : asked) : Prop :=
  stmt_defined widen (fst i) (ca_pieces c) (ca_stmt c) (ca_fmt c) (ca_args c) (snd i).

(** What the generated code knows of a call. *)
Definition known (units : list (list stmt)) (c : call) (g : genfn) : Prop :=
  exists k, number units (ca_stmt c) = Some k /\ nth_error (fnArray units) k = Some (Some g) /\
    denotes (st_file (ca_stmt c)) (gf_file g) /\ gf_line g = st_line (ca_stmt c) /\
    severity (st_level (ca_stmt c)) (gf_level g) /\ gf_fmt g = ca_fmt c.

(** How a call is stored. *)
Definition kept (widen : list Z -> list Z) (units : list (list stmt)) (c : call) (x : amsg) : Prop :=
  exists k, number units (ca_stmt c) = Some k /\ am_id x = Z.of_nat k /\ am_ts x = ca_ts c /\
    forall m p, exists m', pp_log widen units m p (ca_ts c) (ca_stmt c) (ca_args c) = Some (m', p + zlen (am_bytes x)) /\
      meq m' (store m p (am_bytes x)).

Lemma call_known : forall widen conv units es c, program_ok units es -> call_defined widen conv units c -> callable c ->
  exists g fs, known units c g /\ splitAndParse (st_fmt (ca_stmt c)) = Some fs /\ gf_types g = arg_types fs.
Proof.
  intros widen conv units es [s qs fmt args ts text] HPr (Hin & HD & Hts) (Hn & Hs & HT).
  cbn [ca_stmt ca_pieces ca_fmt ca_args ca_ts ca_text] in *.
  destruct HPr as (HP & HLn & HF & HB & HK & HS). rewrite Forall_forall in HLn, HB.
  assert (KV : key s <> invalid_key) by (apply key_valid; [now apply HB|apply HLn; exact Hin]).
  destruct (gen_common _ _ _ _ _ _ _ HD Hn Hs HT) as (fs & e0 & gs & vgs & args' & SP & GE & CA & _).
  destruct HD as (_ & _ & _ & _ & _ & HDf & (nm & HDn) & HL & _).
  pose proof (entry_describes _ _ GE) as (D1 & D2 & D3 & _).
  pose proof HDf as Lf. apply literal_denotes in Lf.
  unfold gen_entry in GE. rewrite SP in GE. destruct (all_some (map gen_frag fs)) as [dfs|]; [|discriminate GE].
  destruct (literal (st_file s)) as [file|] eqn:EF; [|discriminate GE].
  destruct (level_number (st_level s)) as [lv|] eqn:EL; [|discriminate GE].
  apply some_inj in GE. subst e0. cbn [mc_of mc_file mc_line mc_level de_file de_line de_level] in *.
  exists (GenFn file (st_line s) lv (arg_types fs) fmt), fs. split; [|split; [exact SP|reflexivity]].
  destruct (number_some units s Hin KV) as (k & N1 & HI).
  destruct (merge_lookup units s Hin KV) as (s' & HLk & HI' & HK'). apply HK in HK'; auto. subst s'.
  exists k. cbn [ca_stmt ca_fmt gf_file gf_line gf_level gf_fmt]. split; [exact N1|]. split.
  { unfold fnArray, entries. rewrite map_map. rewrite (map_nth_error _ _ _ HI), HLk. unfold gen_fn. rewrite SP, Lf, EF, EL. reflexivity. }
  splits; auto.
Qed.

Lemma call_kept : forall widen conv units es c g, program_ok units es -> call_defined widen conv units c -> callable c -> known units c g ->
  exists x, kept widen units c x /\
    (2 * zlen (am_bytes x) + 16 < 2 ^ 32 -> amsg_ok x /\
     squeezes (pp_compress units) (fun body => unpacks g body (conv, ca_text c)) x).
Proof.
  intros widen conv units es c0 g HPr HC0 HO0 HKn.
  destruct (call_known widen conv units es c0 HPr HC0 HO0) as (g' & fs0 & HKn' & SP0 & GT).
  assert (g' = g) by (destruct HKn as (k & A & B & _), HKn' as (k' & A' & B' & _); congruence). subst g'.
  destruct HKn as (kk & NK & _ & _ & _ & _ & GF).
  destruct c0 as [s qs fmt args ts text], HC0 as (Hin & HD & Hts), HO0 as (Hn & Hs & HT).
  cbn [ca_stmt ca_pieces ca_fmt ca_args ca_ts ca_text] in *.
  pose proof (program_small units es HPr) as SM. destruct HPr as (HP & HLn & HF & HB & HK & HS).
  rewrite Forall_forall in HLn, HB.
  assert (KV : key s <> invalid_key) by (apply key_valid; [now apply HB|apply HLn; exact Hin]).
  destruct (number_entry units es s HP Hin KV) as (k & e & N1 & N2 & N3).
  { intros a Ha Hka. apply HK; auto. }
  destruct (gen_common _ _ _ _ _ _ _ HD Hn Hs HT) as (fs & e0 & gs & vgs & args' & SP & GE & CA & EF & Vok & VP & CG & Cut & DD & NN & LF
    & FG & NE & Hok & St & Cls & R & RR).
  assert (fs0 = fs) by congruence. subst fs0.
  pose proof (related_fine _ _ _ _ _ R Cls) as AF. rewrite <- CG in AF.
  pose proof R as R2. rewrite <- CG in R2.
  set (prims := concat (map obj_bytes (selb prim_type (arg_types fs) args'))) in *.
  set (strings := strings_image (map full (params qs)) None args') in *.
  set (bytes := entry_bytes (Z.of_nat k) ts prims strings).
  assert (ZB : zlen bytes = 16 + zlen prims + zlen strings).
  { unfold bytes, entry_bytes. rewrite !zlen_app, !le_bytes_zlen. lia. }
  pose proof (zlen_nonneg _ prims). pose proof (zlen_nonneg _ strings).
  assert (REC : forall m p, exists r, gen_record m p (Z.of_nat k) ts fs args' = Some r /\ lr_alloc r = zlen bytes /\
     lr_end r = p + zlen bytes /\ meq (lr_mem r) (store m p bytes)).
  { intros m p. destruct (gen_record_spec widen gs fs args args' m p (Z.of_nat k) ts FG NE Hok St AF R2) as (r & ER & AL & LE & LM).
    rewrite CG in AL, LM. fold prims strings bytes in AL, LM. exists r. splits; auto; lia. }
  exists (AMsg (Z.of_nat k) ts bytes). split.
  { exists k. cbn [ca_stmt ca_args ca_ts am_id am_ts am_bytes]. splits; auto. intros m p.
    destruct (REC m p) as (r & ER & _ & LE & LM). exists (lr_mem r). split; [|exact LM].
    unfold pp_log. rewrite SP, N1, CA, ER, LE. reflexivity. }
  cbn [am_bytes]. intro Small.
  assert (K32 : 0 <= Z.of_nat k < 2 ^ 32).
  { assert (k < length es)%nat by (apply nth_error_Some; congruence). unfold zlen in SM. lia. }
  split.
  { unfold amsg_ok. cbn [am_id am_ts am_bytes]. splits; auto; try lia. exists (prims ++ strings). unfold bytes at 1, entry_bytes.
    rewrite to_u_id by lia. replace (zlen prims + zlen strings + 16) with (zlen bytes) by lia. reflexivity. }
  intros min from mout o HL Hmin Hmout. cbn [am_id am_ts am_bytes] in *.
  assert (FN : nth_error (compressFnArray units) k = Some (Some (arg_types fs))).
  { destruct (number_some units s Hin KV) as (k' & N1' & HI). assert (k' = k) by congruence. subst k'.
    destruct (merge_lookup units s Hin KV) as (s' & HLk & HI' & HK'). apply HK in HK'; auto. subst s'.
    unfold compressFnArray, entries. rewrite map_map. rewrite (map_nth_error _ _ _ HI), HLk, SP. reflexivity. }
  unfold pp_compress. rewrite Nat2Z.id, FN. replace (from + 16 - 16) with from by lia.
  destruct (C50_partial widen conv qs s fmt args text HD Hn Hs HT min from (Z.of_nat k) ts mout o)
    as (fs' & e' & args'' & r & Q1 & Q2 & Q3 & Q4 & Q5 & Q6).
  assert (fs' = fs) by congruence. subst fs'. assert (args'' = args') by congruence. subst args''.
  destruct (REC min from) as (r' & ER & AL & _ & LM). assert (r' = r) by congruence. subst r'.
  assert (ME : meq (lr_mem r) min) by (eapply meq_trans; [exact LM|now apply store_same]).
  destruct (Q6 ltac:(lia)) as (c & EC & RD). rewrite (gen_compress_ext _ _ _ _ _ _ ME) in EC.
  destruct (gen_compress_spec widen (params qs) (arg_types fs) args args' min from mout o (Z.of_nat k) ts R Cls HL ltac:(fold prims strings; lia))
    as (NZ & c' & EC' & B & LS & GO & GH & GU).
  assert (c' = c) by congruence. subst c'. rewrite EC. cbv zeta. cbn [cs_mem cs_out cs_hi].
  fold strings in GO. set (xs := pvals (map report (params qs)) args') in *.
  pose proof (zlen_nonneg _ xs). pose proof (zlen_nonneg _ (pvalues xs)).
  destruct (related_prims _ _ _ _ _ R Cls) as (_ & P2 & P3). fold xs in P3.
  destruct (prims_size _ P2) as [S1 S2]. fold prims in S1, S2. rewrite P3 in S1, S2.
  set (body := load (gr_mem c) o (Z.to_nat (gr_out c - o))).
  assert (ZBd : zlen body = gr_out c - o) by (unfold body, zlen; rewrite load_length; lia).
  exists body. splits; auto; try lia.
  - intros m o' lim' HLb Hlim. cbn [fst snd]. rewrite GF, GT. rewrite ZBd. apply unpack_print. apply RD; [|lia].
    intros i Hi. pose proof (load_nth (length body) m o' (Z.to_nat i) 0) as A. pose proof (load_nth (length body) (gr_mem c) o (Z.to_nat i) 0) as A'.
    assert (Z.to_nat i < length body)%nat by (unfold zlen in ZBd; lia).
    assert (E1 : nth (Z.to_nat i) (load m o' (length body)) 0 = nth (Z.to_nat i) (load (gr_mem c) o (length body)) 0).
    { rewrite HLb. unfold body at 2. f_equal. unfold body. now rewrite load_length. }
    rewrite A, A' in E1 by lia. rewrite Z2Nat.id in E1 by lia. exact E1.
  - unfold body. now rewrite load_length.
  - exact (gen_compress_bytes _ _ _ _ _ _ Hmin Hmout EC).
Qed.

Lemma kept_same : forall widen units c x y, kept widen units c x -> kept widen units c y -> x = y.
Proof.
  intros widen units c [i t b] [i' t' b'] (k & N & I & T & L) (k' & N' & I' & T' & L'). cbn [am_id am_ts am_bytes] in *.
  assert (k' = k) by congruence. subst k'.
  destruct (L (fun _ => 0) 0) as (m & E & M), (L' (fun _ => 0) 0) as (m' & E' & M').
  assert (m' = m /\ zlen b' = zlen b) as [-> ZZ] by (split; [congruence|assert (0 + zlen b' = 0 + zlen b) by congruence; lia]).
  assert (b = b').
  { transitivity (load m 0 (length b)).
    - rewrite (meq_load _ _ _ _ M). symmetry. apply load_store_same.
    - replace (length b) with (length b') by (unfold zlen in ZZ; lia). rewrite (meq_load _ _ _ _ M'). apply load_store_same. }
  congruence.
Qed.

(** ** Several messages *)

Record item := Item { i_call : call; i_msg : amsg; i_fn : genfn }.

Definition item_ok (widen : list Z -> list Z) (conv : rconv -> list Z) (units : list (list stmt)) (q : item) : Prop :=
  kept widen units (i_call q) (i_msg q) /\ known units (i_call q) (i_fn q) /\ defined_as widen (i_call q) (conv, ca_text (i_call q)) /\
  (2 * zlen (am_bytes (i_msg q)) + 16 < 2 ^ 32 -> amsg_ok (i_msg q) /\
   squeezes (pp_compress units) (fun body => forall i, defined_as widen (i_call q) i -> unpacks (i_fn q) body i) (i_msg q)).

Lemma calls_items : forall widen conv units es cs, program_ok units es ->
  Forall (call_defined widen conv units) cs -> Forall callable cs ->
  exists qs, map i_call qs = cs /\ Forall (item_ok widen conv units) qs.
Proof.
  intros widen conv units es cs HP HD HO. induction cs as [|c cs IH]; [exists []; split; [reflexivity|constructor]|].
  inversion HD as [|? ? D1 D2]; subst. inversion HO as [|? ? O1 O2]; subst. destruct IH as (ps & E & F); auto.
  destruct (call_known widen conv units es c HP D1 O1) as (g & _ & KN & _).
  destruct (call_kept widen conv units es c g HP D1 O1 KN) as (x & A & B).
  exists (Item c x g :: ps). cbn [map i_call]. rewrite E. split; [reflexivity|]. constructor; [|exact F].
  unfold item_ok. cbn [i_call i_msg i_fn].
  assert (DA : defined_as widen c (conv, ca_text c)) by (destruct D1 as (_ & D1 & _); exact D1).
  split; [exact A|]. split; [exact KN|]. split; [exact DA|].
  intro Small. split; [exact (proj1 (B Small))|].
  apply (squeezes_all asked (pp_compress units) (defined_as widen c) (fun i body => unpacks g body i)).
  - exists (conv, ca_text c). exact DA.
  - intros [conv' text'] DI. unfold defined_as in DI. cbn [fst snd] in DI.
    destruct (call_kept widen conv' units es (Call (ca_stmt c) (ca_pieces c) (ca_fmt c) (ca_args c) (ca_ts c) text') g HP) as (x' & A' & B').
    + destruct D1 as (D1 & _ & D3). split; [exact D1|]. split; [exact DI|exact D3].
    + exact O1.
    + exact KN.
    + assert (x' = x) by (exact (kept_same widen units c x' x A' A)). subst x'. exact (proj2 (B' Small)).
Qed.

Definition staged_items (qs : list item) : list Z := concat (map am_bytes (map i_msg qs)).

Lemma log_items : forall widen conv units qs m p, Forall (item_ok widen conv units) qs ->
  exists m', pp_log_all widen units m p (map triple (map i_call qs)) = Some (m', p + zlen (staged_items qs)) /\ meq m' (store m p (staged_items qs)).
Proof.
  intros widen conv units qs. induction qs as [|[c x g] qs IH]; intros m p H.
  - exists m. unfold staged_items. cbn [map concat pp_log_all]. rewrite zlen_nil, Z.add_0_r. split; [reflexivity|].
    intro y. unfold store. rewrite zlen_nil. replace ((p <=? y) && (y <? p + 0)) with false by lia. reflexivity.
  - inversion H as [|? ? [(k & _ & _ & _ & HL) _] HF]; subst. cbn [i_call i_msg] in *.
    destruct (HL m p) as (m1 & E1 & M1). destruct (IH m1 (p + zlen (am_bytes x)) HF) as (m2 & E2 & M2).
    exists m2. cbn [map triple i_call pp_log_all]. unfold triple. rewrite E1. fold triple. rewrite E2. unfold staged_items. cbn [map concat i_msg].
    fold (staged_items qs). rewrite zlen_app. split; [f_equal; f_equal; lia|].
    eapply meq_trans; [exact M2|]. eapply meq_trans; [apply store_meq; exact M1|]. apply store_app.
Qed.

Definition unpacked_by (widen : list Z -> list Z) (qs : list item) (x : amsg) (body : list Z) : Prop :=
  forall q, In q qs -> i_msg q = x -> forall i, defined_as widen (i_call q) i -> unpacks (i_fn q) body i.

Lemma items_squeeze : forall widen conv units qs, Forall (item_ok widen conv units) qs -> zlen (staged_items qs) < 2 ^ 30 ->
  Forall amsg_ok (map i_msg qs) /\
  Forall (fun x => squeezes (pp_compress units) (unpacked_by widen qs x) x) (map i_msg qs).
Proof.
  intros widen conv units qs H HZ.
  assert (SM : forall q, In q qs -> 2 * zlen (am_bytes (i_msg q)) + 16 < 2 ^ 32).
  { intros q Hq. apply in_split in Hq. destruct Hq as (a & b & ->). unfold staged_items in HZ. rewrite !map_app, concat_app in HZ.
    cbn [map concat] in HZ. rewrite !zlen_app in HZ.
    repeat match type of HZ with context [zlen (concat ?l)] => lazymatch goal with _ : 0 <= zlen (concat l) |- _ => fail | _ => pose proof (zlen_nonneg _ (concat l)) end end. lia. }
  rewrite Forall_forall in H. split; apply Forall_map; apply Forall_forall; intros q Hq.
  - destruct (H _ Hq) as (_ & _ & _ & K). apply (K (SM _ Hq)).
  - assert (SQ : squeezes (pp_compress units) (fun body => forall q', In q' qs /\ i_msg q' = i_msg q ->
        forall i, defined_as widen (i_call q') i -> unpacks (i_fn q') body i) (i_msg q)).
    { apply (squeezes_all item (pp_compress units) (fun q' => In q' qs /\ i_msg q' = i_msg q)
        (fun q' body => forall i, defined_as widen (i_call q') i -> unpacks (i_fn q') body i)).
      - exists q. auto.
      - intros q' [Hq' EM]. destruct (H _ Hq') as (_ & _ & _ & K). rewrite <- EM. apply (K (SM _ Hq')). }
    intros min from mout o HL Hmin Hmout c. destruct (SQ min from mout o HL Hmin Hmout) as (body & PB & REST).
    exists body. split; [|exact REST]. intros q' Hq' EM. apply PB. auto.
Qed.

Lemma items_lines : forall widen conv units cp target tid all, 0 <= target < 2 ^ 32 -> Forall (item_ok widen conv units) all -> forall qs ws,
  (forall q, In q qs -> In q all) -> Forall amsg_ok (map i_msg qs) ->
  Forall2 (squeezed (unpacked_by widen all)) (map i_msg qs) ws ->
  exists ms, map g_w ms = ws /\ Forall (gmsg_ok conv units) ms /\
    forall evs, Forall2 (gline target cp) (map (fun f => (tid, f)) ms) evs ->
      Forall2 (aggregates widen cp units target) (map (fun c => (tid, c)) (map i_call qs)) evs.
Proof.
  intros widen conv units cp target tid all HT HA qs. induction qs as [|q qs IH]; intros ws HI HO HS; cbn [map] in *.
  - inversion HS; subst. exists []. splits; try constructor. intros evs H. inversion H; subst. constructor.
  - inversion HS as [|? w ? ws' (W1 & W2 & W3) HS']; subst. inversion HO as [|? ? (O1 & O2 & _) HO']; subst.
    destruct (IH ws') as (ms & A & B & C); auto. { intros q' Hq. apply HI. now right. }
    assert (IN : In q all) by (apply HI; now left).
    rewrite Forall_forall in HA. destruct (HA _ IN) as ((k & N & K1 & K2 & _) & (k' & N' & FA & G1 & G2 & G3 & G4) & DA & _).
    assert (k' = k) by congruence. subst k'.
    exists (GMsg w (i_fn q) (ca_text (i_call q)) (passed widen (i_call q)) :: ms). cbn [map g_w]. rewrite A. split; [reflexivity|]. split.
    + constructor; [|exact B]. unfold gmsg_ok. cbn [g_w g_fn g_text g_passed]. splits.
      * split; rewrite ?W1, ?W2; auto.
      * rewrite W1, K1, Nat2Z.id. exact FA.
      * intros m o lim HL Hlim. destruct (W3 q IN eq_refl _ DA m o lim HL Hlim) as (vs & U & P). exists vs.
        split; [exact U|]. split; [exact P|]. intros conv' text' SD.
        destruct (W3 q IN eq_refl (conv', text') SD m o lim HL Hlim) as (vs' & U' & P'). cbn [fst snd] in P'. rewrite <- G4. congruence.
    + intros evs H. inversion H as [|? ev ? evs' GL HL]; subst. constructor; [|exact (C _ HL)].
      destruct GL as (vs & PV & ->). cbn [fst snd g_w g_fn g_text g_passed] in *.
      eexists _, _. split; [reflexivity|]. cbn [snd]. split.
      * eexists. split; [reflexivity|]. cbn [sh_cp sh_id sh_ts sh_tid sh_file sh_line sh_level sh_text dm_id dm_ts dm_tid dm_file dm_line dm_level dm_text fst snd].
        splits; auto; try congruence. cbn [sh_id dm_id]. rewrite W1, K1, Nat2Z.id. exact N.
      * unfold calls_for. rewrite W1, K1. destruct (target =? Z.of_nat k) eqn:E.
        -- apply Z.eqb_eq in E. splits; auto. rewrite E, Nat2Z.id. exact N.
        -- intro Q. assert (Z.to_nat target = k) by congruence. apply Z.eqb_neq in E. lia.
Qed.

(** ** The encoder *)

Lemma gmsgs_app : forall a b, gmsgs (a ++ b) = gmsgs a ++ gmsgs b.
Proof. induction a as [|[bs|tid np ms] a IH]; intro b; cbn [app gmsgs]; auto. now rewrite IH, app_assoc. Qed.

Lemma encoded_items : forall widen conv units es cp target, program_ok units es -> 0 <= target < 2 ^ 32 ->
  forall e bs e2 ks, encoded widen units e bs e2 ks ->
  enc_ready e -> Forall (fun b => Forall (call_defined widen conv units) (ba_calls b)) bs ->
  Forall (fun b => Forall callable (ba_calls b)) bs ->
  exists items, Forall (gitem_ok conv units) items /\ e_wp e <= e_wp e2 /\ enc_ready e2 /\
    load (e_mem e2) (e_wp e) (Z.to_nat (e_wp e2 - e_wp e)) = gfile items /\
    (forall y, y < e_wp e -> e_mem e2 y = e_mem e y) /\
    forall evs, Forall2 (gline target cp) (gmsgs items) evs -> Forall2 (aggregates widen cp units target) (taken bs ks) evs.
Proof.
  intros widen conv units es cp target HP HT e bs e2 ks HE. induction HE as [e|e b min fin e1 read k bs e2 ks EL MB L30 NB TI EE EX HE IH]; intros HR HD HO.
  - exists []. rewrite Z.sub_diag. splits; auto; try lia; try constructor.
    intros evs H. inversion H. constructor.
  - inversion HD as [|? ? D1 D2]; subst. inversion HO as [|? ? O1 O2]; subst.
    destruct (calls_items widen conv units es (ba_calls b) HP D1 O1) as (qs & E1 & F1).
    destruct (log_items widen conv units qs (ba_mem b) (ba_at b) F1) as (m' & EL' & MM).
    rewrite E1, EL in EL'. assert (min = m' /\ fin = ba_at b + zlen (staged_items qs)) as [-> ->] by (split; congruence).
    destruct (items_squeeze widen conv units qs F1 ltac:(lia)) as [S1 S2].
    set (xs := map i_msg qs) in *.
    assert (LD : load m' (ba_at b) (length (concat (map am_bytes xs))) = concat (map am_bytes xs)).
    { rewrite (meq_load _ _ _ _ MM). apply load_store_same. }
    destruct HR as (R1 & R2 & R3). unfold encodeLogMsgsPre in EE.
    destruct (squeeze_with (pp_compress units) (unpacked_by widen qs) xs m' (ba_at b) (ba_bytes b) (ba_tid b) (ba_pass b) e e1 read k
      S1 S2 MB R1 R2 R3 TI LD ltac:(fold (staged_items qs); unfold staged_items, xs in *; lia) EE)
      as [(Z9 & -> & -> & ->)|(n & ws & Z9 & Nn & -> & SQ & RE & LX & WP & BE & EN & HI & HI2 & FR & MB' & SZ & _)].
    + destruct (IH ltac:(split; auto) D2 O2) as (items & A1 & A2 & A3 & A4 & A5 & A6).
      exists items. cbn [taken firstn map app]. splits; auto.
    + assert (SP1 : e_space e1 = e_space e - zlen (extent_bytes (ba_tid b) (ba_pass b) ws)) by (unfold e_space; lia).
      pose proof (zlen_nonneg _ (extent_bytes (ba_tid b) (ba_pass b) ws)).
      destruct (IH ltac:(split; [exact MB'|split; lia]) D2 O2) as (items & A1 & A2 & A3 & A4 & A5 & A6).
      assert (FX : firstn n xs = map i_msg (firstn n qs)) by (unfold xs; now rewrite firstn_map).
      rewrite FX in SQ.
      destruct (items_lines widen conv units cp target (ba_tid b) qs HT F1 (firstn n qs) ws) as (ms & M1 & M2 & M3); auto.
      { intros q Hq. rewrite <- (firstn_skipn n qs). apply in_or_app. now left. }
      { rewrite <- FX. apply Forall_firstn'. exact S1. }
      exists (GExtent (ba_tid b) (ba_pass b) ms :: items). splits.
      * constructor; [|exact A1]. cbn [gitem_ok gitem_bytes]. rewrite M1. splits; auto; lia.
      * lia.
      * exact A3.
      * unfold gfile. cbn [map concat gitem_bytes]. fold (gfile items). rewrite M1.
        assert (LP : length (gfile items) = Z.to_nat (e_wp e2 - e_wp e1)) by (rewrite <- A4; apply load_length).
        replace (Z.to_nat (e_wp e2 - e_wp e)) with (length (extent_bytes (ba_tid b) (ba_pass b) ws ++ gfile items))
          by (rewrite app_length; unfold zlen in *; lia).
        apply load_append.
        -- rewrite <- LX at 2. apply load_ext. intros y Hy. apply A5. unfold zlen in *; lia.
        -- rewrite <- WP, LP. exact A4.
      * intros y Hy. rewrite A5 by lia. apply FR. lia.
      * intros evs H9. cbn [gmsgs] in H9. apply Forall2_app_inv_l in H9. destruct H9 as (ev1 & ev2 & G1 & G2 & ->).
        cbn [taken]. apply Forall2_app; [|exact (A6 _ G2)]. rewrite Nat2Z.id, <- E1, firstn_map. exact (M3 _ G1).
Qed.

(** ** C75 for the programs of C49 and the messages of C50. *)
Theorem C75_partial : forall widen conv units es e rdtsc unix cps e1 bs e2 ks pad lim target,
  program_dict units = Some es -> Forall (fun s => 0 <= st_line s < 2 ^ 31) (concat units) ->
  enc_ready e -> 0 <= rdtsc < 2 ^ 64 -> 0 <= unix < 2 ^ 64 -> length cps = 8%nat -> Forall is_byte cps ->
  insertCheckpointDict e rdtsc unix cps es = (e1, true) ->
  Forall (fun b => Forall (call_defined widen conv units) (ba_calls b)) bs ->
  encoded widen units e1 bs e2 ks -> Forall pad_byte pad -> e_wp e2 - e_wp e <= lim -> 0 <= target < 2 ^ 32 ->
  program_ok units es -> Forall (fun b => Forall callable (ba_calls b)) bs ->
  aggregated lim conv units target (load (e_mem e2) (e_wp e) (Z.to_nat (e_wp e2 - e_wp e)) ++ pad)
    (Forall2 (aggregates widen (Checkpoint rdtsc unix cps) units target) (taken bs ks)).
Proof.
  intros widen conv units es e rdtsc unix cps e1 bs e2 ks pad lim target HPd HLn (Hm & He & Hsp) Hr Hu Hc Hb E HD HE Hpad Hlim HT HP HO m0.
  pose proof HP as (_ & _ & HF & _ & _ & HS).
  destruct (C49_written e rdtsc unix cps es e1 true Hm He Hr Hu Hc Hb HF HS E) as (_ & _ & EN & HI & _ & MB & _ & C).
  destruct (C eq_refl) as (WP & junk & D & DM & OK & LD).
  pose proof (bare_size es D DM) as SZ. pose proof (zlen_nonneg _ (metas_bytes D)).
  set (cp := Checkpoint rdtsc unix cps) in *.
  destruct (encoded_items widen conv units es cp target HP HT e1 bs e2 ks HE) as (items & A1 & A2 & A3 & A4 & A5 & A6); auto.
  { split; [exact MB|]. split; [exact HI|]. unfold e_space in *. lia. }
  set (all := items ++ [GPad pad]).
  assert (AOK : Forall (gitem_ok conv units) all).
  { apply Forall_app. split; [exact A1|]. constructor; [exact Hpad|constructor]. }
  destruct (ag_decompress lim conv units target m0 junk cp D all OK ltac:(lia) AOK) as (d & d' & evs & O1 & O2 & O3 & O4).
  assert (PL : gmsgs all = gmsgs items) by (unfold all; rewrite gmsgs_app; cbn [gmsgs]; apply app_nil_r).
  rewrite PL in *.
  exists d, d', evs.
  assert (BY : load (e_mem e2) (e_wp e) (Z.to_nat (e_wp e2 - e_wp e)) ++ pad = execution_bytes junk cp D ++ gfile all).
  { unfold all, gfile. rewrite map_app, concat_app. cbn [map concat gitem_bytes]. rewrite app_nil_r, app_assoc. f_equal. fold (gfile items).
    set (size := 33 + zlen (metas_bytes (bare es))) in *.
    assert (LX : length (execution_bytes junk cp D) = Z.to_nat size) by (rewrite <- LD; apply load_length).
    assert (LP : length (gfile items) = Z.to_nat (e_wp e2 - e_wp e1)) by (rewrite <- A4; apply load_length).
    replace (Z.to_nat (e_wp e2 - e_wp e)) with (length (execution_bytes junk cp D ++ gfile items)) by (rewrite app_length; lia).
    apply load_append.
    - rewrite LX. rewrite <- LD. apply load_ext. intros y Hy. apply A5. lia.
    - replace (zlen (execution_bytes junk cp D)) with size by (unfold zlen in *; lia). rewrite <- WP, LP. exact A4. }
  rewrite BY. split; [exact O1|]. split; [exact O2|]. split; [|exact (A6 _ O3)].
  rewrite O4. unfold zlen. f_equal. clear - O3. induction O3; cbn [length]; auto.
Qed.
Print Assumptions C75_partial.

(** ** The full claim is false *)

(** The program of [C61_refuted]: its log cannot be opened. *)
Theorem C75_refuted : ~ C75_full.
Proof.
  intro F. destruct (program_dict w_escape) as [es|] eqn:E; [|vm_compute in E; discriminate E].
  destruct (insertCheckpointDict (enc_demo 200) 1000 1700000000 cps_demo es) as [e1 ok] eqn:EI.
  assert (EE : forall es', Some es' = program_dict w_escape -> snd (insertCheckpointDict (enc_demo 200) 1000 1700000000 cps_demo es') = true /\
    match md_open_file 4096 (new_mdecoder (fun _ => 0)) (load (e_mem (fst (insertCheckpointDict (enc_demo 200) 1000 1700000000 cps_demo es'))) 0
      (Z.to_nat (e_wp (fst (insertCheckpointDict (enc_demo 200) 1000 1700000000 cps_demo es')) - 0)) ++ []) with Some (_, b) => b = false | None => True end /\
    e_wp (fst (insertCheckpointDict (enc_demo 200) 1000 1700000000 cps_demo es')) - 0 <= 4096).
  { intros es' E'. vm_compute in E'. apply some_inj in E'. subst es'. split; [vm_compute; reflexivity|]. split; [vm_compute; exact eq_refl|vm_compute; discriminate]. }
  destruct (EE es (eq_sym E)) as (Q1 & Q2 & Q3). rewrite EI in Q1, Q2, Q3. cbn [fst snd] in Q1, Q2, Q3. subst ok.
  destruct (F widen0 showw w_escape es (enc_demo 200) 1000 1700000000 cps_demo e1 [] e1 [] [] 4096 0 E) with (m0 := fun _ : Z => 0)
    as (d & d' & evs & O & _); auto.
  - repeat constructor; cbn [st_line]; lia.
  - split; [apply demo_bytes|]. unfold e_space. cbn [enc_demo e_wp e_hi e_end]. lia.
  - lia.
  - lia.
  - exact cps_bytes.
  - constructor.
  - lia.
  - change (e_wp (enc_demo 200)) with 0 in O. rewrite O in Q2. discriminate Q2.
Qed.
Print Assumptions C75_refuted.

(** ** Examples *)

(** The way of [calls], computed: how many messages were taken and printed, and
    what happens when the log is decompressed with a function for [target]. *)
Definition agg_way (units : list (list stmt)) (room : Z) (calls : list call) (target : Z) (agg : bool) : option (Z * Z * list aevent) :=
  match program_dict units with
  | None => None
  | Some es =>
    let '(e1, ok) := insertCheckpointDict (enc_demo room) 1000 1700000000 cps_demo es in
    match pp_log_all widen0 units (fun _ => 0) 1000 (map triple calls) with
    | None => None
    | Some (min, fin) =>
      let '(e2, read, k) := encodeLogMsgsPre units e1 min 1000 (fin - 1000) 21 true in
      match md_open_file 4096 (new_mdecoder (fun _ => 0)) (load (e_mem e2) 0 (Z.to_nat (e_wp e2)) ++ [0; 0]) with
      | Some (d, true) =>
        match ag_internalDecompressUnordered 4096 showw units target agg d with
        | Some (d', evs, true) => Some (k, md_printed d', evs)
        | _ => None
        end
      | _ => None
      end
    end
  end.

Definition brief (ev : aevent) : Z * list Z * option (list Z * list va) :=
  match ev with AvMsg _ dm c => (dm_id dm, dm_text dm, c) | AvNewExecution => (-1, [], None) end.

Definition i32 : ity := Ity true 4.

(** The function counts the statement 1; the other message is only printed. *)
Example C75_instance : option_map (fun x => (fst x, map brief (snd x))) (agg_way u49 300 calls61 1 true) =
  Some (3, 3,
    [(1, chars "Sent " ++ [-3] ++ chars " of -" ++ [9] ++ chars "abc",
      Some (chars "Sent %d of %-*s", [VaInt i32 (-3); VaInt i32 9; VaPtr 13 (PoChars [97; 98; 99; 0])]));
     (3, chars "lost " ++ [200] ++ chars "%", None);
     (1, chars "Sent " ++ [70000] ++ chars " of -" ++ [0],
      Some (chars "Sent %d of %-*s", [VaInt i32 70000; VaInt i32 0; VaPtr 31 (PoChars [0])]))]).
Proof. vm_compute. reflexivity. Qed.

(** A negative width as argument: printed right, and passed, by the generated
    function; the decompressor without aggregation function does not print it
    (C48_refuted_negative_width). *)
Definition u_width : list (list stmt) := [[Stmt (chars "NOTICE") (chars "%*d") (chars "a.cc") 7]].
Definition c_width : call := Call (Stmt (chars "NOTICE") (chars "%*d") (chars "a.cc") 7) [Conv (Spec [] WStar PrNone [] 100)] (chars "%*d")
  [AInt i32 (-5); AInt i32 7] 2000 [45; 5; 7].
Example C75_negative_width : option_map (fun x => (fst x, map brief (snd x))) (agg_way u_width 300 [c_width] 0 true) =
    Some (1, 1, [(0, [45; 5; 7], Some (chars "%*d", [VaInt i32 (-5); VaInt i32 7]))]) /\
  agg_way u_width 300 [c_width] 0 false = None /\ callable c_width.
Proof. split; [vm_compute; reflexivity|]. split; [vm_compute; reflexivity|]. splits; repeat constructor; discriminate. Qed.

(** A target that no statement has: nothing is called. *)
Example C75_no_such_statement : option_map (fun x => map snd (map brief (snd x))) (agg_way u49 300 calls61 (2 ^ 32 - 1) true) = Some [None; None; None].
Proof. vm_compute. reflexivity. Qed.

(** The log of a program with more statements than the decompressor was generated
    for: logId2Metadata is read behind its end. *)
Definition one_message (id : Z) : bfrag := BFrag (fun _ => 0) 10 21 0 10 true id 2000.
Example C75_other_program : option_map snd (ag_decompressNext 4096 showw u_width 0 true (Metas (fun _ => 0) 0 [] []) (one_message 1)) = None /\
  length (fnArray u_width) = 1%nat.
Proof. split; vm_compute; reflexivity. Qed.

(** The conditions of [C75_partial] are met. *)
Example C75_conditions : exists es, program_ok u49 es /\ Forall (call_defined widen0 showw u49) calls61 /\ Forall callable calls61.
Proof.
  destruct C61_conditions as (es & A & B & C). exists es. split; [exact A|]. split; [exact B|].
  eapply Forall_impl; [|exact C]. intros c (H1 & H2 & H3 & _). split; [exact H1|]. split; [exact H2|].
  clear - H3. induction H3 as [|q a ks l Hk HH IH]; constructor; auto. unfold typed. destruct q; cbn in *; auto; discriminate.
Qed.
