(** C79: the logs of several executions of a program the preprocessor handled,
    appended to one file (it is opened with O_APPEND, runtime/Config.h:28, and each
    start begins it with a checkpoint and the dictionary, runtime/Log.cc:108-125). *)
From Verif Require Import Base BaseProofs Packer PackerProofs LogHeader LogHeaderProofs Chars Fmt FmtProofs MicroCode Args ArgsProofs Printf Decode DecodeProofs
  RingProofs Encoder Wire EncoderProofs Decoder FileSpec DecoderProofs MetaDict Preproc PreprocProofs FmtLax FrontFmt FrontFmtProofs Prop_FrontFmt Prop_Args Regex MicroCodeProofs
  PreprocLit Prop_Message GenCode GenSpec GenProofs GenRecord GenMessage Prop_MetaDict Prop_Preproc Prop_GenCode GenDict Prop_GenDict
  MicroMem MemDecoder Prop_MemDecoder PreEncoder PreEncoderProofs PreFile Prop_PreEnd PreOrder PreRuns.
Ltac Zify.zify_post_hook ::= Z.div_mod_to_equations.

(** ** Specification *)

(** What one execution of a program leaves: the checkpoint, the bytes, the messages encoded with their threads. *)
Record plog := PLog { pl_units : list (list stmt); pl_cp : checkpoint; pl_bytes : list Z; pl_took : list (Z * call) }.

Definition left_by (widen : list Z -> list Z) (conv : rconv -> list Z) (ok : call -> Prop) (l : plog) : Prop :=
  exists es e rdtsc unix cps e1 bs e2 ks pad,
    program_dict (pl_units l) = Some es /\ Forall (fun s => 0 <= st_line s < 2 ^ 31) (concat (pl_units l)) /\
    enc_ready e /\ 0 <= rdtsc < 2 ^ 64 /\ 0 <= unix < 2 ^ 64 /\ length cps = 8%nat /\ Forall is_byte cps /\
    insertCheckpointDict e rdtsc unix cps es = (e1, true) /\
    Forall (fun b => Forall (call_defined widen conv (pl_units l)) (ba_calls b)) bs /\
    Forall (fun b => Forall ok (ba_calls b)) bs /\
    encoded widen (pl_units l) e1 bs e2 ks /\ Forall pad_byte pad /\
    pl_cp l = Checkpoint rdtsc unix cps /\ pl_took l = taken bs ks /\
    pl_bytes l = load (e_mem e2) (e_wp e) (Z.to_nat (e_wp e2 - e_wp e)) ++ pad.

(** The lines show the messages of the logs, each log announced. *)
Inductive all_shown : list plog -> list oline -> Prop :=
| all_shown_nil : all_shown [] []
| all_shown_cons : forall l ls x xs, Forall2 (shows (pl_cp l) (pl_units l)) (pl_took l) x -> all_shown ls xs ->
    all_shown (l :: ls) (LNewExecution :: x ++ xs).

Definition file_of (ls : list plog) : list Z := concat (map pl_bytes ls).
Definition took_all (ls : list plog) : list (Z * call) := concat (map pl_took ls).

(** The file is opened; both ways of reading it show every message of every log (the first is not announced). *)
Definition shows_every (lim : Z) (conv : rconv -> list Z) (ls : list plog) : Prop := forall m0, exists d,
  md_open_file lim (new_mdecoder m0) (file_of ls) = Some (d, true) /\
  (exists d' evs, m_decompressUnordered lim conv d = Some (d', evs, zlen (took_all ls)) /\ all_shown ls (LNewExecution :: map line_of evs)) /\
  (exists d' evs, m_iterate lim conv (S (length (took_all ls))) d = Some (d', evs, false) /\ md_printed d' = zlen (took_all ls) /\
     all_shown ls (LNewExecution :: map line_of evs)).

Definition C79_full : Prop := forall widen conv ls lim, ls <> [] -> Forall (left_by widen conv (fun _ => True)) ls ->
  zlen (file_of ls) <= lim -> shows_every lim conv ls.

(** ** Proof *)
Lemma left_run : forall widen conv units es l, program_ok units es -> pl_units l = units -> left_by widen conv call_ok l ->
  exists r, run_ok conv (map mc_of es) r /\ run_bytes r = pl_bytes l /\ pr_cp r = pl_cp l /\
    Forall2 (shows (pl_cp l) units) (pl_took l) (plines (pr_cp r) (pr_items r)).
Proof.
  intros widen conv units es l HP EU (es' & e & rdtsc & unix & cps & e1 & bs & e2 & ks & pad & HPd & HLn & (Hm & He & Hsp) & Hr & Hu & Hc & Hb & E & HD & HO & HE & Hpad & EC & ET & EB).
  rewrite EU in *. pose proof HP as (HPd' & _ & HF & _ & _ & HS). assert (es' = es) by congruence. subst es'.
  destruct (C49_written e rdtsc unix cps es e1 true Hm He Hr Hu Hc Hb HF HS E) as (_ & _ & EN & HI & _ & MB & _ & C).
  destruct (C eq_refl) as (WP & junk & D & DM & OK & LD).
  pose proof (bare_size es D DM) as SZ. pose proof (zlen_nonneg _ (metas_bytes D)).
  rewrite EC, ET, EB. set (cp := Checkpoint rdtsc unix cps) in *.
  destruct (encoded_file widen conv units es cp HP e1 bs e2 ks HE) as (items & A1 & A2 & A3 & A4 & A5 & A6); auto.
  { split; [exact MB|]. split; [exact HI|]. unfold e_space in *. lia. }
  exists (PRun junk cp D (items ++ [PPad pad])). unfold run_ok, run_bytes. cbn [pr_junk pr_cp pr_dict pr_items]. split; [|split; [|split]].
  - split; [exact OK|]. split; [exact DM|]. apply Forall_app. split; [exact A1|]. constructor; [exact Hpad|constructor].
  - symmetry. rewrite pfile_app. unfold pfile at 2. cbn [map concat pitem_bytes]. rewrite app_nil_r, app_assoc. f_equal.
    set (size := 33 + zlen (metas_bytes (GenDict.bare es))) in *.
    assert (LX : length (execution_bytes junk cp D) = Z.to_nat size) by (rewrite <- LD; apply load_length).
    assert (LP : length (pfile items) = Z.to_nat (e_wp e2 - e_wp e1)) by (rewrite <- A4; apply load_length).
    replace (Z.to_nat (e_wp e2 - e_wp e)) with (length (execution_bytes junk cp D ++ pfile items)) by (rewrite app_length; lia).
    apply load_append.
    + rewrite LX. rewrite <- LD. apply load_ext. intros y Hy. apply A5. lia.
    + replace (zlen (execution_bytes junk cp D)) with size by (unfold zlen in *; lia). rewrite <- WP, LP. exact A4.
  - reflexivity.
  - rewrite plines_app. cbn [plines]. rewrite app_nil_r. exact A6.
Qed.

Lemma left_runs : forall widen conv units es ls, program_ok units es -> Forall (fun l => pl_units l = units) ls -> Forall (left_by widen conv call_ok) ls ->
  exists rs, Forall (run_ok conv (map mc_of es)) rs /\ runs_bytes rs = file_of ls /\ all_shown ls (runs_lines rs) /\
    length rs = length ls /\ zlen (messages (runs_lines rs)) = zlen (took_all ls).
Proof.
  intros widen conv units es ls HP. induction ls as [|l ls IH]; intros HU HL.
  - exists []. splits; auto; constructor.
  - inversion HU as [|? ? U1 U2]; subst. inversion HL as [|? ? L1 L2]; subst.
    destruct (left_run widen conv (pl_units l) es l HP eq_refl L1) as (r & R1 & R2 & R3 & R4).
    destruct (IH U2 L2) as (rs & S1 & S2 & S3 & S4 & S5). exists (r :: rs). splits.
    + now constructor.
    + unfold runs_bytes, file_of in *. cbn [map concat]. now rewrite R2, S2.
    + unfold runs_lines. cbn [map concat app]. constructor; [exact R4|exact S3].
    + cbn [length]. lia.
    + unfold runs_lines. cbn [map concat app]. change (messages (LNewExecution :: ?x)) with (messages x). rewrite messages_app, zlen_app.
      fold (runs_lines rs). unfold took_all in *. cbn [map concat]. rewrite zlen_app, S5, (shows_messages _ _ _ _ R4).
      f_equal. clear - R4. induction R4; [reflexivity|]. rewrite !zlen_cons. lia.
Qed.

(** ** C79 for the executions of one program, within the limits of C61. *)
Theorem C79_partial : forall widen conv ls lim, ls <> [] -> Forall (left_by widen conv call_ok) ls ->
  zlen (file_of ls) <= lim ->
  (exists units es, program_ok units es /\ Forall (fun l => pl_units l = units) ls) ->
  shows_every lim conv ls.
Proof.
  intros widen conv ls lim HN HL Hlim (units & es & HP & HU) m0.
  destruct (left_runs widen conv units es ls HP HU HL) as (rs & R1 & R2 & R3 & R4 & R5).
  destruct rs as [|r rs]; [destruct ls; [contradiction HN; reflexivity|discriminate R4]|].
  inversion R1 as [|? ? X R1']; subst. pose proof X as (X1 & X2 & X3). rewrite <- X2 in X, R1'.
  assert (BZ : forall r', run_ok conv (map fst (pr_dict r)) r' -> zlen (metas_bytes (pr_dict r)) <= zlen (run_bytes r')).
  { intros r' (_ & Y & _). rewrite <- (same_size (pr_dict r') (pr_dict r) Y). unfold run_bytes, execution_bytes. rewrite !zlen_app.
    repeat match goal with |- context [zlen ?x] => lazymatch goal with H : 0 <= zlen x |- _ => fail | _ => pose proof (zlen_nonneg _ x) end end. lia. }
  assert (SZ : zlen (metas_bytes (pr_dict r)) <= lim /\ (rs <> [] -> 2 * zlen (metas_bytes (pr_dict r)) <= lim)).
  { rewrite <- R2 in Hlim. unfold runs_bytes in Hlim. cbn [map concat] in Hlim. rewrite zlen_app in Hlim. pose proof (BZ r X).
    split; [pose proof (zlen_nonneg _ (concat (map run_bytes rs))); lia|]. intro NE. destruct rs as [|r2 rs]; [congruence|].
    cbn [map concat] in Hlim. rewrite zlen_app in Hlim. pose proof (zlen_nonneg _ (concat (map run_bytes rs))).
    inversion R1' as [|? ? Y _]; subst. pose proof (BZ r2 Y). lia. }
  destruct (runs_read lim conv m0 r rs [] X R1' (proj1 SZ) (proj2 SZ) (or_introl eq_refl)) as (d & O & (d1 & evs1 & U1 & U2) & (d2 & evs2 & I1 & I2 & I3)).
  rewrite app_nil_r, R2 in O. exists d. split; [exact O|].
  assert (LS : runs_lines (r :: rs) = LNewExecution :: plines (pr_cp r) (pr_items r) ++ runs_lines rs) by reflexivity.
  rewrite LS in R3, R5. change (messages (LNewExecution :: ?x)) with (messages x) in R5.
  split.
  - exists d1, evs1. rewrite U1, R5, U2. split; [reflexivity|exact R3].
  - exists d2, evs2. assert (LL : length (took_all ls) = length (messages (plines (pr_cp r) (pr_items r) ++ runs_lines rs))) by (unfold zlen in R5; lia).
    rewrite LL, I1, I2, I3, R5. split; [reflexivity|]. split; [reflexivity|exact R3].
Qed.
Print Assumptions C79_partial.

(** ** The full claim is false *)

(** A program that is changed: the log of the new version is read with the old
    one's dictionary (C41); with texts of other lengths it is rejected. *)
Definition w_old : list (list stmt) := [[Stmt (chars "NOTICE") (chars "Hi") (chars "a.cc") 7]].
Definition w_new : list (list stmt) := [[Stmt (chars "NOTICE") (chars "Hello") (chars "a.cc") 7]].

Definition empty_log (units : list (list stmt)) : option plog :=
  match program_dict units with
  | None => None
  | Some es =>
    let '(e1, ok) := insertCheckpointDict (enc_demo 200) 1000 1700000000 cps_demo es in
    if ok then Some (PLog units (Checkpoint 1000 1700000000 cps_demo) (load (e_mem e1) 0 (Z.to_nat (e_wp e1 - 0)) ++ []) []) else None
  end.

Lemma empty_left : forall widen conv units l, empty_log units = Some l -> Forall (fun s => 0 <= st_line s < 2 ^ 31) (concat units) ->
  left_by widen conv (fun _ => True) l.
Proof.
  intros widen conv units l H HL. unfold empty_log in H. destruct (program_dict units) as [es|] eqn:E; [|discriminate H].
  destruct (insertCheckpointDict (enc_demo 200) 1000 1700000000 cps_demo es) as [e1 ok] eqn:EI. destruct ok; [|discriminate H].
  apply some_inj in H. subst l. exists es, (enc_demo 200), 1000, 1700000000, cps_demo, e1, [], e1, [], []. cbn [pl_units pl_cp pl_took pl_bytes].
  split; [exact E|]. split; [exact HL|]. split; [split; [apply demo_bytes|]; unfold e_space; cbn [enc_demo e_wp e_hi e_end]; lia|].
  split; [lia|]. split; [lia|]. split; [reflexivity|]. split; [exact cps_bytes|]. split; [exact EI|]. split; [constructor|]. split; [constructor|].
  split; [constructor|]. split; [constructor|]. split; [reflexivity|]. split; reflexivity.
Qed.

Theorem C79_refuted : ~ C79_full.
Proof.
  intro F. destruct (empty_log w_old) as [a|] eqn:EA; [|vm_compute in EA; discriminate EA].
  destruct (empty_log w_new) as [b|] eqn:EB; [|vm_compute in EB; discriminate EB].
  assert (Q : forall a b, Some a = empty_log w_old -> Some b = empty_log w_new -> zlen (file_of [a; b]) <= 4096 /\ took_all [a; b] = [] /\
    match md_open_file 4096 (new_mdecoder (fun _ => 0)) (file_of [a; b]) with
    | Some (d, _) => match m_decompressUnordered 4096 showw d with Some (_, _, n) => n = -1 | None => True end
    | None => True
    end).
  { intros a' b' A B. vm_compute in A, B. apply some_inj in A. apply some_inj in B. subst a' b'. split; [vm_compute; discriminate|].
    split; [reflexivity|vm_compute; reflexivity]. }
  destruct (Q a b (eq_sym EA) (eq_sym EB)) as (Q1 & Q2 & Q3).
  destruct (F widen0 showw [a; b] 4096 ltac:(discriminate)) with (m0 := fun _ : Z => 0) as (d & O & (d' & evs & U & _) & _); auto.
  - constructor; [|constructor; [|constructor]].
    + apply (empty_left _ _ w_old); [exact EA|]. repeat constructor; cbn [st_line]; lia.
    + apply (empty_left _ _ w_new); [exact EB|]. repeat constructor; cbn [st_line]; lia.
  - rewrite O, U, Q2 in Q3. discriminate Q3.
Qed.
Print Assumptions C79_refuted.

(** ** Examples *)

(** Executions of programs with the calls given, one behind the other: the
    result of decompressUnordered, and the lines in both ways. *)
Definition log_of (units : list (list stmt)) (now : Z) (calls : list call) : option (list Z) :=
  match program_dict units with
  | None => None
  | Some es =>
    match pp_log_all widen0 units (fun _ => 0) 1000 (map triple calls) with
    | None => None
    | Some (min, fin) =>
      let e2 := fst (fst (encodeLogMsgsPre units (fst (insertCheckpointDict (enc_demo 300) now 1700000000 cps_demo es)) min 1000 (fin - 1000) 21 true)) in
      Some (load (e_mem e2) 0 (Z.to_nat (e_wp e2)) ++ [0; 0])
    end
  end.
Definition brief (e : event) : option (Z * Z * list Z) :=
  match e with EvMsg cp m => Some (cp_rdtsc cp, dm_ts m, dm_text m) | EvNewExecution => None end.
Definition read79 (logs : list (option (list Z))) : option (Z * list (option (Z * Z * list Z)) * bool) :=
  match md_open_file 4096 (new_mdecoder (fun _ => 0)) (concat (map (fun o => match o with Some l => l | None => [] end) logs)) with
  | Some (d, true) =>
    match m_decompressUnordered 4096 showw d, m_iterate 4096 showw 9 d with
    | Some (_, evs, n), Some (_, evs', r) => Some (n, map brief evs, r)
    | _, _ => None
    end
  | _ => None
  end.
Definition s_hi : stmt := Stmt (chars "NOTICE") (chars "Hi") (chars "a.cc") 7.
Definition hi (ts : Z) : call := Call s_hi (map Lit (chars "Hi")) (chars "Hi") [] ts (chars "Hi").

(** Three executions, the second without messages. *)
Example C79_three : read79 [log_of w_old 1000 [hi 1001; hi 1005]; log_of w_old 2000 []; log_of w_old 50 [hi 60]] =
  Some (3, [Some (1000, 1001, chars "Hi"); Some (1000, 1005, chars "Hi"); None; None; Some (50, 60, chars "Hi")], false).
Proof. vm_compute. reflexivity. Qed.

(** Another program whose texts have the same lengths: its message "Ho" is printed as "Hi". *)
Definition s_ho : stmt := Stmt (chars "NOTICE") (chars "Ho") (chars "b.cc") 9.
Example C79_other_program : read79 [log_of w_old 1000 [hi 1001]; log_of [[s_ho]] 2000 [Call s_ho (map Lit (chars "Ho")) (chars "Ho") [] 2002 (chars "Ho")]] =
  Some (2, [Some (1000, 1001, chars "Hi"); None; Some (2000, 2002, chars "Hi")], false).
Proof. vm_compute. reflexivity. Qed.
