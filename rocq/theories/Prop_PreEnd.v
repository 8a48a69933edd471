(** C61: the preprocessor version from the statements of a program to the lines of
    the decompressor: recorded, compressed, written behind the checkpoint with the
    dictionary, read by a new decompressor. *)
From Verif Require Import Base BaseProofs Packer PackerProofs LogHeader LogHeaderProofs Chars Fmt FmtProofs MicroCode Args ArgsProofs Printf Decode DecodeProofs
  RingProofs Encoder Wire EncoderProofs Decoder FileSpec DecoderProofs MetaDict Preproc PreprocProofs FmtLax FrontFmt FrontFmtProofs Prop_FrontFmt Prop_Args Regex MicroCodeProofs
  PreprocLit Prop_Message GenCode GenSpec GenProofs GenRecord GenMessage Prop_MetaDict Prop_Preproc Prop_GenCode GenDict Prop_GenDict
  MicroMem MemDecoder PreEncoder PreEncoderProofs PreFile.
Ltac Zify.zify_post_hook ::= Z.div_mod_to_equations.

(** An executed log statement: where printf given the arguments prints [ca_text]. *)
Record call := Call {
  ca_stmt : stmt; ca_pieces : list piece; ca_fmt : list Z; ca_args : list arg; ca_ts : Z; ca_text : list Z
}.
Definition triple (c : call) : stmt * list arg * Z := (ca_stmt c, ca_args c, ca_ts c).

Definition call_defined (widen : list Z -> list Z) (conv : rconv -> list Z) (units : list (list stmt)) (c : call) : Prop :=
  In (ca_stmt c) (concat units) /\
  stmt_defined widen conv (ca_pieces c) (ca_stmt c) (ca_fmt c) (ca_args c) (ca_text c) /\ 0 <= ca_ts c < 2 ^ 64.

(** The restrictions of C48. *)
Definition call_ok (c : call) : Prop :=
  natural (ca_pieces c) = true /\ stored_ok (ca_pieces c) = true /\ Forall2 harmless (params (ca_pieces c)) (ca_args c) /\
  nonstrings (ca_pieces c) <= 255 /\ zlen (convs (ca_pieces c)) <= 255.

(** Statements recorded one behind the other in a thread's staging buffer (at
    [ba_at] of the memory [ba_mem]), and what encodeLogMsgs is called with. *)
Record batch := Batch { ba_mem : mem; ba_at : Z; ba_calls : list call; ba_tid : Z; ba_pass : bool; ba_bytes : Z }.

(** The encoder is called for one batch after the other; [ks]: how many messages
    it reports for each. *)
Inductive encoded (widen : list Z -> list Z) (units : list (list stmt)) : enc -> list batch -> enc -> list Z -> Prop :=
| encoded_nil : forall e, encoded widen units e [] e []
| encoded_cons : forall e b min fin e1 read k bs e2 ks,
    pp_log_all widen units (ba_mem b) (ba_at b) (map triple (ba_calls b)) = Some (min, fin) -> mem_bytes min ->
    fin - ba_at b < 2 ^ 30 -> 0 <= ba_bytes b <= fin - ba_at b -> 0 <= ba_tid b < 2 ^ 32 ->
    encodeLogMsgsPre units e min (ba_at b) (ba_bytes b) (ba_tid b) (ba_pass b) = (e1, read, k) ->
    e_wp e1 - e_wp e <= EXTENT_MAX ->
    encoded widen units e1 bs e2 ks -> encoded widen units e (b :: bs) e2 (k :: ks).

(** The messages that were encoded, each with its thread. *)
Fixpoint taken (bs : list batch) (ks : list Z) : list (Z * call) :=
  match bs, ks with
  | b :: bs', k :: ks' => map (fun c => (ba_tid b, c)) (firstn (Z.to_nat k) (ba_calls b)) ++ taken bs' ks'
  | _, _ => []
  end.

(** A line of the output shows a message. *)
Definition shows (cp : checkpoint) (units : list (list stmt)) (x : Z * call) (l : oline) : Prop :=
  exists sh, l = LMsg sh /\ sh_cp sh = cp /\ number units (ca_stmt (snd x)) = Some (Z.to_nat (sh_id sh)) /\
    sh_ts sh = ca_ts (snd x) /\ sh_tid sh = fst x /\
    denotes (st_file (ca_stmt (snd x))) (sh_file sh) /\ sh_line sh = st_line (ca_stmt (snd x)) /\
    severity (st_level (ca_stmt (snd x))) (sh_level sh) /\ sh_text sh = ca_text (snd x).

(** The program: its dictionary fits (C49). *)
Definition program_ok (units : list (list stmt)) (es : list dentry) : Prop :=
  program_dict units = Some es /\ Forall (fun s => 0 <= st_line s < 2 ^ 31) (concat units) /\
  Forall entry_fits es /\ Forall (fun s => Forall (fun c => 0 <= c) (st_fmt s ++ st_file s)) (concat units) /\
  (forall a b, In a (concat units) -> In b (concat units) -> key a = key b -> a = b) /\
  zlen (metas_bytes (bare es)) < 2 ^ 32.

Definition pad_byte (b : Z) : Prop := is_byte b /\ b mod 4 = 0.

(** C61 as claimed. *)
Definition decompresses (lim : Z) (conv : rconv -> list Z) (bytes : list Z) (P : list oline -> Prop) : Prop :=
  forall m0, exists d d' evs n, md_open_file lim (new_mdecoder m0) bytes = Some (d, true) /\
    m_decompressUnordered lim conv d = Some (d', evs, n) /\ n = zlen evs /\ P (map line_of evs).

Definition enc_ready (e : enc) : Prop := mem_bytes (e_mem e) /\ e_wp e <= e_hi e <= e_end e /\ e_space e < 2 ^ 32.

Definition C61_full : Prop := forall widen conv units es e rdtsc unix cps e1 bs e2 ks pad lim,
  program_dict units = Some es -> Forall (fun s => 0 <= st_line s < 2 ^ 31) (concat units) ->
  enc_ready e -> 0 <= rdtsc < 2 ^ 64 -> 0 <= unix < 2 ^ 64 -> length cps = 8%nat -> Forall is_byte cps ->
  insertCheckpointDict e rdtsc unix cps es = (e1, true) ->
  Forall (fun b => Forall (call_defined widen conv units) (ba_calls b)) bs ->
  encoded widen units e1 bs e2 ks -> Forall pad_byte pad -> e_wp e2 - e_wp e <= lim ->
  decompresses lim conv (load (e_mem e2) (e_wp e) (Z.to_nat (e_wp e2 - e_wp e)) ++ pad)
    (Forall2 (shows (Checkpoint rdtsc unix cps) units) (taken bs ks)).

(** ** One message *)

Lemma store_same : forall m a bs, load m a (length bs) = bs -> meq (store m a bs) m.
Proof.
  intros m a bs H x. unfold store. destruct ((a <=? x) && (x <? a + zlen bs)) eqn:E; [|reflexivity].
  apply andb_prop in E. destruct E. pose proof (load_nth (length bs) m a (Z.to_nat (x - a)) 0) as L. rewrite H in L.
  rewrite L by (unfold zlen in *; lia). f_equal. lia.
Qed.

(** What is stored for a call, and what its micro code is. *)
Definition stored_as (widen : list Z -> list Z) (units : list (list stmt)) (es : list dentry) (c : call) (x : amsg) (e : dentry) : Prop :=
  exists k, number units (ca_stmt c) = Some k /\ am_id x = Z.of_nat k /\ am_ts x = ca_ts c /\
    gen_entry (ca_stmt c) = Some e /\ nth_error es k = Some e /\
    forall m p, exists m', pp_log widen units m p (ca_ts c) (ca_stmt c) (ca_args c) = Some (m', p + zlen (am_bytes x)) /\
      meq m' (store m p (am_bytes x)).

Lemma program_small : forall units es, program_ok units es -> zlen es < 2 ^ 32.
Proof.
  intros units es (_ & _ & _ & _ & _ & H). pose proof (metas_count (bare es)). unfold bare in *. rewrite zlen_map in H0. lia.
Qed.

Lemma call_message : forall widen conv units es c, program_ok units es -> call_defined widen conv units c -> call_ok c ->
  exists x e, stored_as widen units es c x e /\
    (2 * zlen (am_bytes x) + 16 < 2 ^ 32 -> amsg_ok x /\
     squeezes (pp_compress units) (fun body => prints conv (mc_of e) body (ca_text c)) x).
Proof.
  intros widen conv units es [s qs fmt args ts text] HPr (Hin & HD & Hts) (Hn & Hs & HH & H1 & H2).
  cbn [ca_stmt ca_pieces ca_fmt ca_args ca_ts ca_text] in *.
  pose proof (program_small units es HPr) as SM. destruct HPr as (HP & HLn & HF & HB & HK & HS).
  rewrite Forall_forall in HLn, HB.
  assert (KV : key s <> invalid_key) by (apply key_valid; [now apply HB|apply HLn; exact Hin]).
  destruct (number_entry units es s HP Hin KV) as (k & e & N1 & N2 & N3).
  { intros a Ha Hka. apply HK; auto. }
  assert (HT : Forall2 typed (params qs) args).
  { clear - HH. induction HH as [|q a ks l Hk HH IH]; constructor; auto. unfold typed. destruct q; cbn in *; auto; discriminate. }
  destruct (gen_common _ _ _ _ _ _ _ HD Hn Hs HT) as (fs & e0 & gs & vgs & args' & SP & GE & CA & EF & Vok & VP & CG & Cut & DD & NN & LF
    & FG & NE & Hok & St & Cls & R & RR).
  assert (e0 = e) by congruence. subst e0.
  pose proof (related_fine _ _ _ _ _ R Cls) as AF. rewrite <- CG in AF.
  pose proof R as R2. rewrite <- CG in R2.
  set (prims := concat (map obj_bytes (selb prim_type (arg_types fs) args'))) in *.
  set (strings := strings_image (map full (params qs)) None args') in *.
  set (bytes := entry_bytes (Z.of_nat k) ts prims strings).
  assert (ZB : zlen bytes = 16 + zlen prims + zlen strings).
  { unfold bytes, entry_bytes. rewrite !zlen_app, !le_bytes_zlen. lia. }
  pose proof (zlen_nonneg _ prims). pose proof (zlen_nonneg _ strings).
  assert (REC : forall m p, exists r, gen_record m p (Z.of_nat k) ts fs args' = Some r /\ lr_alloc r = zlen bytes /\
     lr_end r = p + zlen bytes /\ meq (lr_mem r) (store m p bytes)).
  { intros m p. destruct (gen_record_spec widen gs fs args args' m p (Z.of_nat k) ts FG NE Hok St AF R2) as (r & ER & AL & LE & LM).
    rewrite CG in AL, LM. fold prims strings bytes in AL, LM. exists r. splits; auto; lia. }
  exists (AMsg (Z.of_nat k) ts bytes), e. split.
  { exists k. cbn [ca_stmt ca_args ca_ts am_id am_ts am_bytes]. splits; auto. intros m p.
    destruct (REC m p) as (r & ER & _ & LE & LM). exists (lr_mem r). split; [|exact LM].
    unfold pp_log. rewrite SP, N1, CA, ER, LE. reflexivity. }
  cbn [am_bytes]. intro Small.
  assert (K32 : 0 <= Z.of_nat k < 2 ^ 32).
  { assert (k < length es)%nat by (apply nth_error_Some; congruence). unfold zlen in SM. lia. }
  split.
  { unfold amsg_ok. cbn [am_id am_ts am_bytes]. splits; auto; try lia. exists (prims ++ strings). unfold bytes at 1, entry_bytes.
    rewrite to_u_id by lia. replace (zlen prims + zlen strings + 16) with (zlen bytes) by lia. reflexivity. }
  intros min from mout o HL Hmin Hmout. cbn [am_id am_ts am_bytes] in *.
  assert (FN : nth_error (compressFnArray units) k = Some (Some (arg_types fs))).
  { destruct (number_some units s Hin KV) as (k' & N1' & HI). assert (k' = k) by congruence. subst k'.
    destruct (merge_lookup units s Hin KV) as (s' & HLk & HI' & HK'). apply HK in HK'; auto. subst s'.
    unfold compressFnArray, entries. rewrite map_map. rewrite (map_nth_error _ _ _ HI), HLk, SP. reflexivity. }
  unfold pp_compress. rewrite Nat2Z.id, FN. replace (from + 16 - 16) with from by lia.
  destruct (C48_partial widen conv qs s fmt args text HD Hn Hs HH H1 H2 min from (Z.of_nat k) ts mout o)
    as (fs' & e' & args'' & r & Q1 & Q2 & Q3 & Q4 & Q5 & Q6).
  assert (fs' = fs) by congruence. subst fs'. assert (e' = e) by congruence. subst e'. assert (args'' = args') by congruence. subst args''.
  destruct (REC min from) as (r' & ER & AL & _ & LM). assert (r' = r) by congruence. subst r'.
  assert (ME : meq (lr_mem r) min) by (eapply meq_trans; [exact LM|now apply store_same]).
  destruct (Q6 ltac:(lia)) as (c & EC & RD). rewrite (gen_compress_ext _ _ _ _ _ _ ME) in EC.
  destruct (gen_compress_spec widen (params qs) (arg_types fs) args args' min from mout o (Z.of_nat k) ts R Cls HL ltac:(fold prims strings; lia))
    as (NZ & c' & EC' & B & LS & GO & GH & GU).
  assert (c' = c) by congruence. subst c'. rewrite EC. cbv zeta. cbn [cs_mem cs_out cs_hi].
  fold strings in GO. set (xs := pvals (map report (params qs)) args') in *.
  pose proof (zlen_nonneg _ xs). pose proof (zlen_nonneg _ (pvalues xs)).
  destruct (related_prims _ _ _ _ _ R Cls) as (_ & P2 & P3). fold xs in P3.
  destruct (prims_size _ P2) as [S1 S2]. fold prims in S1, S2. rewrite P3 in S1, S2.
  set (body := load (gr_mem c) o (Z.to_nat (gr_out c - o))).
  assert (ZBd : zlen body = gr_out c - o) by (unfold body, zlen; rewrite load_length; lia).
  exists body. splits; auto; try lia.
  - intros m o' lim' HLb Hlim. destruct (RD m o' lim') as (pushed & PM).
    + intros i Hi. pose proof (load_nth (length body) m o' (Z.to_nat i) 0) as A. pose proof (load_nth (length body) (gr_mem c) o (Z.to_nat i) 0) as A'.
      assert (Z.to_nat i < length body)%nat by (unfold zlen in ZBd; lia).
      assert (E1 : nth (Z.to_nat i) (load m o' (length body)) 0 = nth (Z.to_nat i) (load (gr_mem c) o (length body)) 0).
      { rewrite HLb. unfold body at 2. f_equal. unfold body. now rewrite load_length. }
      rewrite A, A' in E1 by lia. rewrite Z2Nat.id in E1 by lia. exact E1.
    + lia.
    + exists pushed. rewrite PM, ZBd. reflexivity.
  - unfold body. now rewrite load_length.
  - exact (gen_compress_bytes _ _ _ _ _ _ Hmin Hmout EC).
Qed.

(** ** Several messages *)

Definition pair_ok (widen : list Z -> list Z) (conv : rconv -> list Z) (units : list (list stmt)) (es : list dentry) (q : call * (amsg * dentry)) : Prop :=
  stored_as widen units es (fst q) (fst (snd q)) (snd (snd q)) /\
  (2 * zlen (am_bytes (fst (snd q))) + 16 < 2 ^ 32 -> amsg_ok (fst (snd q)) /\
   squeezes (pp_compress units) (fun body => prints conv (mc_of (snd (snd q))) body (ca_text (fst q))) (fst (snd q))).

Lemma calls_pairs : forall widen conv units es cs, program_ok units es ->
  Forall (call_defined widen conv units) cs -> Forall call_ok cs ->
  exists ps, map fst ps = cs /\ Forall (pair_ok widen conv units es) ps.
Proof.
  intros widen conv units es cs HP HD HO. induction cs as [|c cs IH]; [exists []; split; [reflexivity|constructor]|].
  inversion HD; subst. inversion HO; subst. destruct IH as (ps & E & F); auto.
  destruct (call_message widen conv units es c HP) as (x & e & A & B); auto.
  exists ((c, (x, e)) :: ps). cbn [map fst]. rewrite E. split; [reflexivity|]. constructor; [split; auto|exact F].
Qed.

Definition staged (ps : list (call * (amsg * dentry))) : list Z := concat (map am_bytes (map (fun q => fst (snd q)) ps)).

Lemma log_all_staged : forall widen conv units es ps m p, Forall (pair_ok widen conv units es) ps ->
  exists m', pp_log_all widen units m p (map triple (map fst ps)) = Some (m', p + zlen (staged ps)) /\ meq m' (store m p (staged ps)).
Proof.
  intros widen conv units es ps. induction ps as [|[c [x e]] ps IH]; intros m p H.
  - exists m. unfold staged. cbn [map concat pp_log_all]. rewrite zlen_nil, Z.add_0_r. split; [reflexivity|].
    intro y. unfold store. rewrite zlen_nil. replace ((p <=? y) && (y <? p + 0)) with false by lia. reflexivity.
  - inversion H as [|? ? [(k & _ & _ & _ & _ & _ & HL) _] HF]; subst. cbn [fst snd] in *.
    destruct (HL m p) as (m1 & E1 & M1). destruct (IH m1 (p + zlen (am_bytes x)) HF) as (m2 & E2 & M2).
    exists m2. cbn [map triple fst pp_log_all]. unfold triple. rewrite E1. fold triple. rewrite E2. unfold staged. cbn [map concat fst snd].
    fold (staged ps). rewrite zlen_app. split; [f_equal; f_equal; lia|].
    eapply meq_trans; [exact M2|]. eapply meq_trans; [apply store_meq; exact M1|]. apply store_app.
Qed.

Lemma squeezes_all : forall A cf (I : A -> Prop) (Q : A -> list Z -> Prop) x, (exists i, I i) ->
  (forall i, I i -> squeezes cf (Q i) x) -> squeezes cf (fun body => forall i, I i -> Q i body) x.
Proof.
  intros A cf I Q x (i0 & H0) H min from mout o HL Hmin Hmout c.
  destruct (H i0 H0 min from mout o HL Hmin Hmout) as (body & PB & LB & CO & CU & MB & CH & CS).
  exists body. split; [|exact (conj LB (conj CO (conj CU (conj MB (conj CH CS)))))]. intros i Hi.
  destruct (H i Hi min from mout o HL Hmin Hmout) as (body' & PB' & LB' & CO' & _).
  assert (length body' = length body) by (unfold zlen in *; lia). rewrite H1 in LB'. rewrite <- LB, LB'. exact PB'.
Qed.

Definition printed_by (conv : rconv -> list Z) (ps : list (call * (amsg * dentry))) (x : amsg) (body : list Z) : Prop :=
  forall i, In (fst i, (x, snd i)) ps -> prints conv (mc_of (snd i)) body (ca_text (fst i)).

Lemma pairs_squeeze : forall widen conv units es ps, Forall (pair_ok widen conv units es) ps -> zlen (staged ps) < 2 ^ 30 ->
  Forall amsg_ok (map (fun q => fst (snd q)) ps) /\
  Forall (fun x => squeezes (pp_compress units) (printed_by conv ps x) x) (map (fun q => fst (snd q)) ps).
Proof.
  intros widen conv units es ps H HZ.
  assert (SM : forall q, In q ps -> 2 * zlen (am_bytes (fst (snd q))) + 16 < 2 ^ 32).
  { intros q Hq. apply in_split in Hq. destruct Hq as (a & b & ->). unfold staged in HZ. rewrite !map_app, concat_app in HZ.
    cbn [map concat] in HZ. rewrite !zlen_app in HZ. 
    repeat match type of HZ with context [zlen (concat ?l)] => lazymatch goal with _ : 0 <= zlen (concat l) |- _ => fail | _ => pose proof (zlen_nonneg _ (concat l)) end end. lia. }
  rewrite Forall_forall in H. split; apply Forall_map; apply Forall_forall; intros [c [x e]] Hq; cbn [fst snd] in *.
  - destruct (H _ Hq) as [_ K]. apply (K (SM _ Hq)).
  - unfold printed_by. apply (squeezes_all (call * dentry) (pp_compress units) (fun i => In (fst i, (x, snd i)) ps)
      (fun i body => prints conv (mc_of (snd i)) body (ca_text (fst i)))).
    + exists (c, e). exact Hq.
    + intros i Hi. destruct (H _ Hi) as [_ K]. cbn [fst snd] in K. apply (K (SM _ Hi)).
Qed.

Lemma pairs_lines : forall widen conv units es cp tid all, Forall (pair_ok widen conv units es) all -> forall ps ws,
  (forall q, In q ps -> In q all) -> Forall amsg_ok (map (fun q => fst (snd q)) ps) ->
  Forall2 (squeezed (printed_by conv all)) (map (fun q => fst (snd q)) ps) ws ->
  exists ms, map pm_w ms = ws /\ Forall (pmsg_ok conv (map mc_of es)) ms /\
    Forall2 (shows cp units) (map (fun c => (tid, c)) (map fst ps)) (map (pshow cp tid) ms).
Proof.
  intros widen conv units es cp tid all HA ps. induction ps as [|[c [x e]] ps IH]; intros ws HI HO HS; cbn [map fst snd] in *.
  - inversion HS; subst. exists []. splits; constructor.
  - inversion HS as [|? w ? ws' (W1 & W2 & W3) HS']; subst. inversion HO as [|? ? (O1 & O2 & _) HO']; subst.
    destruct (IH ws') as (ms & A & B & C); auto. { intros q Hq. apply HI. now right. }
    assert (IN : In (c, (x, e)) all) by (apply HI; now left).
    rewrite Forall_forall in HA. destruct (HA _ IN) as [(k & N & K1 & K2 & G & NE & _) _]. cbn [fst snd] in *.
    exists (PMsg w (mc_of e) (ca_text c) :: ms). cbn [map pm_w]. rewrite A. split; [reflexivity|]. split.
    + constructor; [|exact B]. unfold pmsg_ok. cbn [pm_w pm_mc pm_text]. splits.
      * split; rewrite ?W1, ?W2; auto.
      * rewrite W1, K1, Nat2Z.id. now apply map_nth_error.
      * exact (W3 (c, e) IN).
    + constructor; [|exact C]. destruct (entry_describes _ _ G) as (D1 & D2 & D3 & _).
      eexists. split; [reflexivity|]. cbn [sh_cp sh_id sh_ts sh_tid sh_file sh_line sh_level sh_text pm_w pm_mc pm_text fst snd].
      splits; auto; try congruence. rewrite W1, K1, Nat2Z.id. exact N.
Qed.

(** ** The encoder *)

Lemma encoded_file : forall widen conv units es cp, program_ok units es -> forall e bs e2 ks, encoded widen units e bs e2 ks ->
  enc_ready e -> Forall (fun b => Forall (call_defined widen conv units) (ba_calls b)) bs ->
  Forall (fun b => Forall call_ok (ba_calls b)) bs ->
  exists items, Forall (pitem_ok conv (map mc_of es)) items /\ e_wp e <= e_wp e2 /\ enc_ready e2 /\
    load (e_mem e2) (e_wp e) (Z.to_nat (e_wp e2 - e_wp e)) = pfile items /\
    (forall y, y < e_wp e -> e_mem e2 y = e_mem e y) /\
    Forall2 (shows cp units) (taken bs ks) (plines cp items).
Proof.
  intros widen conv units es cp HP e bs e2 ks HE. induction HE as [e|e b min fin e1 read k bs e2 ks EL MB L30 NB TI EE EX HE IH]; intros HR HD HO.
  - exists []. rewrite Z.sub_diag. splits; auto; try lia; constructor.
  - inversion HD as [|? ? D1 D2]; subst. inversion HO as [|? ? O1 O2]; subst.
    destruct (calls_pairs widen conv units es (ba_calls b) HP D1 O1) as (ps & E1 & F1).
    destruct (log_all_staged widen conv units es ps (ba_mem b) (ba_at b) F1) as (m' & EL' & MM).
    rewrite E1, EL in EL'. assert (min = m' /\ fin = ba_at b + zlen (staged ps)) as [-> ->] by (split; congruence).
    destruct (pairs_squeeze widen conv units es ps F1 ltac:(lia)) as [S1 S2].
    set (xs := map (fun q => fst (snd q)) ps) in *.
    assert (LD : load m' (ba_at b) (length (concat (map am_bytes xs))) = concat (map am_bytes xs)).
    { rewrite (meq_load _ _ _ _ MM). apply load_store_same. }
    destruct HR as (R1 & R2 & R3). unfold encodeLogMsgsPre in EE.
    destruct (squeeze_with (pp_compress units) (printed_by conv ps) xs m' (ba_at b) (ba_bytes b) (ba_tid b) (ba_pass b) e e1 read k
      S1 S2 MB R1 R2 R3 TI LD ltac:(fold (staged ps); unfold staged, xs in *; lia) EE)
      as [(Z9 & -> & -> & ->)|(n & ws & Z9 & Nn & -> & SQ & RE & LX & WP & BE & EN & HI & HI2 & FR & MB' & SZ & _)].
    + destruct (IH ltac:(split; auto) D2 O2) as (items & A1 & A2 & A3 & A4 & A5 & A6).
      exists items. cbn [taken firstn map app]. splits; auto.
    + assert (SP1 : e_space e1 = e_space e - zlen (extent_bytes (ba_tid b) (ba_pass b) ws)) by (unfold e_space; lia).
      pose proof (zlen_nonneg _ (extent_bytes (ba_tid b) (ba_pass b) ws)).
      destruct (IH ltac:(split; [exact MB'|split; lia]) D2 O2) as (items & A1 & A2 & A3 & A4 & A5 & A6).
      assert (FX : firstn n xs = map (fun q => fst (snd q)) (firstn n ps)) by (unfold xs; now rewrite firstn_map).
      rewrite FX in SQ.
      destruct (pairs_lines widen conv units es cp (ba_tid b) ps F1 (firstn n ps) ws) as (ms & M1 & M2 & M3); auto.
      { intros q Hq. rewrite <- (firstn_skipn n ps). apply in_or_app. now left. }
      { rewrite <- FX. apply Forall_firstn'. exact S1. }
      exists (PExtent (ba_tid b) (ba_pass b) ms :: items). splits.
      * constructor; [|exact A1]. cbn [pitem_ok pitem_bytes]. rewrite M1. splits; auto; lia.
      * lia.
      * exact A3.
      * unfold pfile. cbn [map concat pitem_bytes]. fold (pfile items). rewrite M1.
        assert (LP : length (pfile items) = Z.to_nat (e_wp e2 - e_wp e1)) by (rewrite <- A4; apply load_length).
        replace (Z.to_nat (e_wp e2 - e_wp e)) with (length (extent_bytes (ba_tid b) (ba_pass b) ws ++ pfile items))
          by (rewrite app_length; unfold zlen in *; lia).
        apply load_append.
        -- rewrite <- LX at 2. apply load_ext. intros y Hy. apply A5. unfold zlen in *; lia.
        -- rewrite <- WP, LP. exact A4.
      * intros y Hy. rewrite A5 by lia. apply FR. lia.
      * cbn [taken plines]. apply Forall2_app; [|exact A6]. rewrite Nat2Z.id, <- E1, firstn_map. exact M3.
Qed.

Lemma pfile_app : forall a b, pfile (a ++ b) = pfile a ++ pfile b.
Proof. intros. unfold pfile. now rewrite map_app, concat_app. Qed.

Lemma plines_app : forall cp a b, plines cp (a ++ b) = plines cp a ++ plines cp b.
Proof. intros cp a b. induction a as [|[bs|tid np ms] a IH]; cbn [app plines]; auto. now rewrite IH, app_assoc. Qed.

Lemma shows_messages : forall cp units xs ls, Forall2 (shows cp units) xs ls -> zlen (messages ls) = zlen ls.
Proof.
  intros cp units xs ls H. induction H as [|x l xs ls (sh & -> & _) H IH]; [reflexivity|]. unfold messages in *. cbn [map concat app].
  rewrite !zlen_cons. lia.
Qed.

(** ** C61 for programs and messages within the limits of C48 and C49. *)
Theorem C61_partial : forall widen conv units es e rdtsc unix cps e1 bs e2 ks pad lim,
  program_dict units = Some es -> Forall (fun s => 0 <= st_line s < 2 ^ 31) (concat units) ->
  enc_ready e -> 0 <= rdtsc < 2 ^ 64 -> 0 <= unix < 2 ^ 64 -> length cps = 8%nat -> Forall is_byte cps ->
  insertCheckpointDict e rdtsc unix cps es = (e1, true) ->
  Forall (fun b => Forall (call_defined widen conv units) (ba_calls b)) bs ->
  encoded widen units e1 bs e2 ks -> Forall pad_byte pad -> e_wp e2 - e_wp e <= lim ->
  program_ok units es -> Forall (fun b => Forall call_ok (ba_calls b)) bs ->
  decompresses lim conv (load (e_mem e2) (e_wp e) (Z.to_nat (e_wp e2 - e_wp e)) ++ pad)
    (Forall2 (shows (Checkpoint rdtsc unix cps) units) (taken bs ks)).
Proof.
  intros widen conv units es e rdtsc unix cps e1 bs e2 ks pad lim HPd HLn (Hm & He & Hsp) Hr Hu Hc Hb E HD HE Hpad Hlim HP HO m0.
  pose proof HP as (_ & _ & HF & _ & _ & HS).
  destruct (C49_written e rdtsc unix cps es e1 true Hm He Hr Hu Hc Hb HF HS E) as (_ & _ & EN & HI & _ & MB & _ & C).
  destruct (C eq_refl) as (WP & junk & D & DM & OK & LD).
  pose proof (bare_size es D DM) as SZ. pose proof (zlen_nonneg _ (metas_bytes D)).
  set (cp := Checkpoint rdtsc unix cps) in *.
  destruct (encoded_file widen conv units es cp HP e1 bs e2 ks HE) as (items & A1 & A2 & A3 & A4 & A5 & A6); auto.
  { split; [exact MB|]. split; [exact HI|]. unfold e_space in *. lia. }
  set (all := items ++ [PPad pad]).
  assert (AOK : Forall (pitem_ok conv (map fst D)) all).
  { rewrite DM. apply Forall_app. split; [exact A1|]. constructor; [exact Hpad|constructor]. }
  destruct (pre_decompress lim conv m0 junk cp D all [] OK ltac:(lia) AOK (or_introl eq_refl)) as (d & d' & evs & O1 & O2 & O3). rewrite app_nil_r in O1.
  assert (PL : plines cp all = plines cp items) by (unfold all; rewrite plines_app; cbn [plines]; apply app_nil_r).
  rewrite PL in *.
  exists d, d', evs, (zlen (messages (plines cp items))).
  assert (BY : load (e_mem e2) (e_wp e) (Z.to_nat (e_wp e2 - e_wp e)) ++ pad = execution_bytes junk cp D ++ pfile all).
  { unfold all. rewrite pfile_app. unfold pfile at 2. cbn [map concat pitem_bytes]. rewrite app_nil_r, app_assoc. f_equal.
    set (size := 33 + zlen (metas_bytes (bare es))) in *.
    assert (LX : length (execution_bytes junk cp D) = Z.to_nat size) by (rewrite <- LD; apply load_length).
    assert (LP : length (pfile items) = Z.to_nat (e_wp e2 - e_wp e1)) by (rewrite <- A4; apply load_length).
    replace (Z.to_nat (e_wp e2 - e_wp e)) with (length (execution_bytes junk cp D ++ pfile items)) by (rewrite app_length; lia).
    apply load_append.
    - rewrite LX. rewrite <- LD. apply load_ext. intros y Hy. apply A5. lia.
    - replace (zlen (execution_bytes junk cp D)) with size by (unfold zlen in *; lia). rewrite <- WP, LP. exact A4. }
  rewrite BY. split; [exact O1|]. split; [exact O2|]. split; [|rewrite O3; exact A6].
  rewrite (shows_messages _ _ _ _ A6), <- O3. apply zlen_map.
Qed.
Print Assumptions C61_partial.

Lemma skipn_nth : forall A n (l : list A) x, nth_error l n = Some x -> exists r, skipn n l = x :: r.
Proof.
  intros A n. induction n as [|n IH]; intros [|y l] x Ex; try discriminate Ex; cbn [nth_error skipn] in *.
  - injection Ex as ->. now exists l.
  - exact (IH l x Ex).
Qed.

(** Every call can be recorded, and where the room suffices every message of a
    batch is taken. *)
Theorem C61_complete_partial : forall widen conv units es e m p cs tid np min fin e1 read k,
  program_ok units es -> enc_ready e -> 0 <= tid < 2 ^ 32 -> Forall (call_defined widen conv units) cs -> Forall call_ok cs ->
  (exists r, pp_log_all widen units m p (map triple cs) = Some r) /\
  (pp_log_all widen units m p (map triple cs) = Some (min, fin) -> mem_bytes min -> fin - p < 2 ^ 30 ->
   2 * (fin - p) + 25 <= e_space e ->
   encodeLogMsgsPre units e min p (fin - p) tid np = (e1, read, k) -> read = fin - p /\ k = zlen cs).
Proof.
  intros widen conv units es e m p cs tid np min fin e1 read k HP (R1 & R2 & R3) TI D1 O1.
  destruct (calls_pairs widen conv units es cs HP D1 O1) as (ps & E1 & F1).
  destruct (log_all_staged widen conv units es ps m p F1) as (m' & EL' & MM).
  rewrite E1 in EL'. split; [eauto|]. intros EL MB L30 SPC EE.
  rewrite EL in EL'. assert (min = m' /\ fin = p + zlen (staged ps)) as [-> ->] by (split; congruence).
  replace (p + zlen (staged ps) - p) with (zlen (staged ps)) in * by lia.
  destruct (pairs_squeeze widen conv units es ps F1 ltac:(lia)) as [S1 S2].
  set (xs := map (fun q => fst (snd q)) ps) in *.
  assert (LD : load m' p (length (concat (map am_bytes xs))) = concat (map am_bytes xs)).
  { rewrite (meq_load _ _ _ _ MM). apply load_store_same. }
  change (staged ps) with (concat (map am_bytes xs)) in *. pose proof (zlen_nonneg _ (concat (map am_bytes xs))).
  destruct (squeeze_with (pp_compress units) (printed_by conv ps) xs m' p (zlen (concat (map am_bytes xs))) tid np e e1 read k
      S1 S2 MB R1 R2 R3 TI LD ltac:(lia) EE)
      as [(Z9 & -> & -> & ->)|(n & ws & Z9 & Nn & -> & SQ & RE & LX & WP & BE & EN & HI & HI2 & FR & MB' & SZ & ST)]; [lia|].
  assert (SPL : concat (map am_bytes xs) = concat (map am_bytes (firstn n xs)) ++ concat (map am_bytes (skipn n xs))).
  { rewrite <- concat_app, <- map_app, firstn_skipn. reflexivity. }
  assert (LL : length xs = length cs) by (unfold xs; rewrite map_length, <- E1, map_length; reflexivity).
  destruct (Nat.eq_dec n (length xs)) as [->|NE].
  { rewrite firstn_all in RE. split; [exact RE|]. unfold zlen. lia. }
  exfalso. destruct (nth_error xs n) as [x|] eqn:Ex; [|apply nth_error_None in Ex; lia].
  assert (SK : exists r, skipn n xs = x :: r).
  { exact (skipn_nth _ n xs x Ex). }
  destruct SK as (r & SK). rewrite SPL, SK in *. cbn [map concat] in *. rewrite !zlen_app in *.
  assert (X16 : 16 <= zlen (am_bytes x)).
  { rewrite Forall_forall in S1. destruct (S1 x (nth_error_In _ _ Ex)) as (_ & _ & _ & rest & EB). rewrite EB, !zlen_app, !le_bytes_zlen.
    pose proof (zlen_nonneg _ rest). lia. }
  pose proof (zlen_nonneg _ (concat (map am_bytes r))). pose proof (zlen_nonneg _ (concat (map am_bytes (firstn n xs)))).
  destruct ST as (x' & Ex' & [[ST1 ST2]|ST]); [lia| |]; assert (x' = x) by congruence; subst x'.
  - lia.
  - unfold e_space in *. rewrite WP, EN in ST. lia.
Qed.
Print Assumptions C61_complete_partial.

(** ** The full claim is false *)

(** A program with the file name a\b.cc: its log cannot be read at all. *)
Theorem C61_refuted : ~ C61_full.
Proof.
  intro F. destruct (program_dict w_escape) as [es|] eqn:E; [|vm_compute in E; discriminate E].
  destruct (insertCheckpointDict (enc_demo 200) 1000 1700000000 cps_demo es) as [e1 ok] eqn:EI.
  assert (EE : forall es', Some es' = program_dict w_escape -> snd (insertCheckpointDict (enc_demo 200) 1000 1700000000 cps_demo es') = true /\
    match md_open_file 4096 (new_mdecoder (fun _ => 0)) (load (e_mem (fst (insertCheckpointDict (enc_demo 200) 1000 1700000000 cps_demo es'))) 0
      (Z.to_nat (e_wp (fst (insertCheckpointDict (enc_demo 200) 1000 1700000000 cps_demo es')) - 0)) ++ []) with Some (_, b) => b = false | None => True end /\
    e_wp (fst (insertCheckpointDict (enc_demo 200) 1000 1700000000 cps_demo es')) - 0 <= 4096).
  { intros es' E'. vm_compute in E'. apply some_inj in E'. subst es'. split; [vm_compute; reflexivity|]. split; [vm_compute; exact eq_refl|vm_compute; discriminate]. }
  destruct (EE es (eq_sym E)) as (Q1 & Q2 & Q3). rewrite EI in Q1, Q2, Q3. cbn [fst snd] in Q1, Q2, Q3. subst ok.
  destruct (F widen0 showw w_escape es (enc_demo 200) 1000 1700000000 cps_demo e1 [] e1 [] [] 4096 E) with (m0 := fun _ : Z => 0)
    as (d & d' & evs & n & O & _); auto.
  - repeat constructor; cbn [st_line]; lia.
  - split; [apply demo_bytes|]. unfold e_space. cbn [enc_demo e_wp e_hi e_end]. lia.
  - lia.
  - lia.
  - exact cps_bytes.
  - constructor.
  - change (e_wp (enc_demo 200)) with 0 in O. rewrite O in Q2. discriminate Q2.
Qed.
Print Assumptions C61_refuted.

(** ** Examples *)

(** The whole way, computed: whether the dictionary was written, how many bytes
    and messages were taken, how many messages were read, and the lines. *)
Definition whole_way (units : list (list stmt)) (room : Z) (calls : list call) : option (bool * Z * Z * Z * list oline) :=
  match program_dict units with
  | None => None
  | Some es =>
    let '(e1, ok) := insertCheckpointDict (enc_demo room) 1000 1700000000 cps_demo es in
    match pp_log_all widen0 units (fun _ => 0) 1000 (map triple calls) with
    | None => None
    | Some (min, fin) =>
      let '(e2, read, k) := encodeLogMsgsPre units e1 min 1000 (fin - 1000) 21 true in
      match md_open_file 4096 (new_mdecoder (fun _ => 0)) (load (e_mem e2) 0 (Z.to_nat (e_wp e2)) ++ [0; 0]) with
      | Some (d, true) =>
        match m_decompressUnordered 4096 showw d with
        | Some (_, evs, n) => Some (ok, read, k, n, map line_of evs)
        | None => None
        end
      | _ => None
      end
    end
  end.

Definition summary (l : oline) : option (Z * Z * Z * Z * Z * list Z) :=
  match l with LMsg sh => Some (sh_id sh, sh_ts sh, sh_tid sh, sh_line sh, sh_level sh, sh_text sh) | LNewExecution => None end.

(** Statements of the program of C49. *)
Definition s_sent : stmt := Stmt (chars "NOTICE") (chars "Sent %d of %-*s") (chars "net.cc") 120.
Definition s_lost : stmt := Stmt (chars "ERROR") (chars "lost %hhu%%") (chars "net.h") 30.
Definition q_sent : list piece := map Lit (chars "Sent ") ++ [Conv (Spec [] WNone PrNone [] 100)] ++ map Lit (chars " of ") ++
  [Conv (Spec [45] WStar PrNone [] 115)].
Definition q_lost : list piece := map Lit (chars "lost ") ++ [Conv (Spec [] WNone PrNone (chars "hh") 117); Pct].
Definition calls61 : list call :=
  [Call s_sent q_sent (st_fmt s_sent) [AInt (Ity true 4) (-3); AInt (Ity true 4) 9; AStr 50 [97; 98; 99; 0]] 2000
     (chars "Sent " ++ [-3] ++ chars " of -" ++ [9] ++ chars "abc");
   Call s_lost q_lost (st_fmt s_lost) [AInt (Ity false 1) 200] 1990 (chars "lost " ++ [200] ++ chars "%");
   Call s_sent q_sent (st_fmt s_sent) [AInt (Ity true 4) 70000; AInt (Ity true 4) 0; AStr 50 [0]] 5000
     (chars "Sent " ++ [70000] ++ chars " of -" ++ [0])].

Definition line61 (id ts line level : Z) (text : list Z) : option (Z * Z * Z * Z * Z * list Z) := Some (id, ts, 21, line, level, text).

Example C61_whole_way : option_map (fun x => (fst x, map summary (snd x))) (whole_way u49 300 calls61) =
  Some (true, 70, 3, 3, [line61 1 2000 120 3 (chars "Sent " ++ [-3] ++ chars " of -" ++ [9] ++ chars "abc");
    line61 3 1990 30 1 (chars "lost " ++ [200] ++ chars "%"); line61 1 5000 120 3 (chars "Sent " ++ [70000] ++ chars " of -" ++ [0])]).
Proof. vm_compute. reflexivity. Qed.

(** Little room: the encoder takes the first messages. *)
Example C61_little_room : option_map (fun x => (fst x, map summary (snd x))) (whole_way u49 247 calls61) =
  Some (true, 45, 2, 2, [line61 1 2000 120 3 (chars "Sent " ++ [-3] ++ chars " of -" ++ [9] ++ chars "abc");
    line61 3 1990 30 1 (chars "lost " ++ [200] ++ chars "%")]).
Proof. vm_compute. reflexivity. Qed.

(** The conditions of [C61_partial] are met. *)
Example C61_conditions : exists es, program_ok u49 es /\ Forall (call_defined widen0 showw u49) calls61 /\ Forall call_ok calls61.
Proof.
  destruct C49_conditions as (es & A & B & C & D & E & G). exists es. split; [unfold program_ok; splits; auto|]. split.
  - unfold calls61. repeat (constructor; [split; [cbn [concat u49 app In ca_stmt]; unfold s_sent, s_lost; tauto|split; [|cbn [ca_ts]; lia]];
      cbn [ca_stmt ca_pieces ca_fmt ca_args ca_text]; defined_now|]). constructor.
  - unfold calls61. repeat (constructor; [split; [reflexivity|split; [reflexivity|split; [|split; vm_compute; discriminate]]]|]); [..|constructor];
      cbn [ca_pieces ca_args]; repeat constructor; cbn [harmless]; intros n E0; vm_compute in E0;
      apply (f_equal (fun o => match o with Some y => y | None => 0 end)) in E0; subst n; discriminate.
Qed.

(** Two statements of one line that differ in the severity: the second (ERROR, 1)
    is printed with the severity 4 (DEBUG) of the first. *)
Example C61_severity : option_map (fun x => map summary (snd x)) (whole_way w_level 300
    [Call (Stmt (chars "ERROR") (chars "Hello") (chars "a.cc") 7) (map Lit (chars "Hello")) (chars "Hello") [] 2000 (chars "Hello")]) =
  Some [line61 0 2000 7 4 (chars "Hello")].
Proof. vm_compute. reflexivity. Qed.
