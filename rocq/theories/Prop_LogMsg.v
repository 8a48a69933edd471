(** C34: the arguments a user of the decoder gets from a LogMessage. *)
From Verif Require Import Base BaseProofs Packer Chars Fmt FmtProofs FrontFmt Prop_FrontFmt MicroCode MicroCodeProofs Prop_MicroCode
  Args ArgsProofs Printf Decode DecodeProofs Prop_Message LogMsg LogMsgProofs.

(** Specification: the arguments pushed since the last reset. *)
Definition seen (l : list (list Z)) (o : lop) : list (list Z) :=
  match o with LReset _ _ _ => [] | LPush bs _ => l ++ [bs] end.
Definition args_after (ops : list lop) : list (list Z) := fold_left seen ops [].

(** Arguments of at most eight bytes; never more than [most_args] of them. *)
Definition op_ok (o : lop) : Prop := match o with LReset _ _ _ => True | LPush bs _ => fits8 bs end.
Definition usable (ops : list lop) : Prop :=
  Forall op_ok ops /\ forall k, zlen (args_after (firstn k ops)) <= most_args.

Lemma args_after_snoc : forall ops o, args_after (ops ++ [o]) = seen (args_after ops) o.
Proof. intros. unfold args_after. rewrite fold_left_app. reflexivity. Qed.

Lemma args_after_fit : forall ops, Forall op_ok ops -> Forall fits8 (args_after ops).
Proof.
  intro ops. induction ops as [|o ops IH] using rev_ind; intro H; [constructor|].
  apply Forall_app in H. destruct H as [H1 H2]. rewrite args_after_snoc. inversion H2; subst.
  destruct o; cbn [seen]; [constructor|]. apply Forall_app. split; auto.
Qed.

Lemma usable_snoc : forall ops o, usable (ops ++ [o]) -> usable ops.
Proof.
  intros ops o [H1 H2]. apply Forall_app in H1. split; [tauto|]. intro k.
  specialize (H2 (min k (length ops))). rewrite firstn_app in H2.
  replace (min k (length ops) - length ops)%nat with 0%nat in H2 by lia.
  cbn [firstn] in H2. rewrite app_nil_r in H2. rewrite <- firstn_firstn, firstn_all in H2. exact H2.
Qed.

Lemma lm_run_app : forall a b s, lm_run s (a ++ b) = match lm_run s a with Some s' => lm_run s' b | None => None end.
Proof.
  induction a as [|o a IH]; intros b s; cbn [app lm_run]; [reflexivity|].
  destruct (lm_step s o); [apply IH|reflexivity].
Qed.

Lemma run_ok : forall ops, usable ops -> exists s, lm_run lm_init ops = Some s /\ lm_ok s (args_after ops).
Proof.
  intro ops. induction ops as [|o ops IH] using rev_ind; intro U.
  { exists lm_init. split; [reflexivity|apply init_ok]. }
  destruct (IH (usable_snoc _ _ U)) as (s & R & O). rewrite lm_run_app, R, args_after_snoc.
  pose proof U as [U1 U2]. apply Forall_app in U1. destruct U1 as [U1 U3]. inversion U3; subst.
  destruct o as [meta i t|bs junk]; cbn [lm_run lm_step seen op_ok] in *.
  - eexists. split; [reflexivity|]. eapply reset_ok; eauto.
  - specialize (U2 (length (ops ++ [LPush bs junk]))). rewrite firstn_all, args_after_snoc in U2. cbn [seen] in U2.
    rewrite zlen_app in U2. change (zlen [bs]) with 1 in U2.
    destruct (push_ok s (args_after ops) bs junk O (args_after_fit _ U1) H1) as (s' & P & O' & _).
    { destruct O. lia. }
    rewrite P. exists s'. split; [reflexivity|exact O'].
Qed.

(** Whatever was done with the object before, the arguments of the current
    message are all there, each at its position with its value; no access is out
    of bounds and nothing is leaked. *)
Theorem C34_kept : forall ops, usable ops ->
  exists s, lm_run lm_init ops = Some s /\ lm_num s = zlen (args_after ops) /\
    (forall i bs, nth_error (args_after ops) i = Some bs -> lm_get s (Z.of_nat i) (length bs) = Some bs) /\
    lm_live (lm_destroy s) = 0 /\ lm_ext (lm_destroy s) = None.
Proof.
  intros ops U. destruct (run_ok ops U) as (s & R & O). exists s. split; [exact R|].
  pose proof (args_after_fit _ (proj1 U)) as F8.
  split; [apply O|]. split; [intros i bs; now apply get_ok|].
  destruct O as [_ _ _ _ E _]. unfold lm_destroy. destruct (lm_ext s) eqn:X; cbn [lm_live lm_ext].
  - split; [lia|reflexivity].
  - split; [lia|exact X].
Qed.
Print Assumptions C34_kept.

(** [usable] bounds the count exactly: one argument more and doubling the
    capacity overflows an int. *)
Theorem C34_limit_exact : forall ops bs junk, usable ops -> zlen (args_after ops) = most_args ->
  lm_run lm_init (ops ++ [LPush bs junk]) = None.
Proof.
  intros ops bs junk U E. destruct (run_ok ops U) as (s & R & O). rewrite lm_run_app, R. cbn [lm_run lm_step].
  destruct O as [A B (k & K1 & K2) _ _ _]. unfold most_args in E.
  assert (k = 27) as ->.
  { destruct (Z.eq_dec k 27); auto. destruct (pow_grow k ltac:(lia)) as (G1 & _ & G3).
    assert (2 ^ (k + 1) <= 2 ^ 27) by (apply Z.pow_le_mono_r; lia). change (2 ^ 27) with 134217728 in *. lia. }
  unfold lm_push. change (10 * 2 ^ 27) with 1342177280 in *.
  assert (lm_num s = 1342177280) by congruence. rewrite H, K2. change (1342177280 =? 1342177280) with true. cbv iota.
  unfold lm_reserve. rewrite K2, H. change (1342177280 + 1 <=? 1342177280) with false. cbv iota.
  reflexivity.
Qed.
Print Assumptions C34_limit_exact.

(** ** From the log statement to the LogMessage *)

Definition starless (ps : list piece) : bool :=
  forallb (fun sp => negb (dyn_width sp) && negb (dyn_prec sp)) (convs ps).
Definition lit_prec (sp : spec) : option Z :=
  match sp_prec sp with PrNum ds => Some (dec_val ds) | _ => None end.
Definition has_long_double (ps : list piece) : bool :=
  existsb (fun sp => match conv_kind sp with CkLongDouble => true | _ => false end) (convs ps).

(** What a user gets for argument [a] of conversion [sp] when the bytes [bs] are
    read at its position: an argument [v] with this representation from which
    printf takes the same value. *)
Definition same_value (widen : list Z -> list Z) (sp : spec) (a : arg) (bs : list Z) : Prop :=
  exists v x, bs = va_bytes widen v /\ take sp (lit_prec sp) (promote a) = Some x /\ take sp (lit_prec sp) v = Some x.

(** The LogMessage, with any history, after the message has been decoded. *)
Definition received (widen : list Z -> list Z) (pushed : list va) (P : lmsg -> Prop) : Prop :=
  forall before meta id ts junks, usable before -> length junks = length pushed ->
    exists s, lm_run lm_init (before ++ deliver widen meta id ts (combine pushed junks)) = Some s /\
      lm_meta s = meta /\ lm_id s = id /\ lm_rdtsc s = ts /\ P s.

Lemma resolved_at : forall ps args l, starless ps = true -> resolved ps (map promote args) = Some l ->
  forall i sp, nth_error (convs ps) i = Some sp -> exists a rc, nth_error args i = Some a /\
    nth_error l i = Some (sp, rc) /\ rc_prec rc = lit_prec sp /\ take sp (lit_prec sp) (promote a) = Some (rc_val rc).
Proof.
  induction ps as [|[c| |sp0] ps IH]; intros args l Hs HR i sp Hi; cbn [convs] in Hi.
  - destruct i; discriminate Hi.
  - apply (IH args l); auto.
  - apply (IH args l); auto.
  - unfold starless in Hs. cbn [convs forallb] in Hs. apply andb_true_iff in Hs. destruct Hs as [H0 Hs].
    cbn [resolved] in HR. destruct (resolve sp0 (map promote args)) as [[rc vs']|] eqn:ER; [|discriminate].
    destruct (resolved ps vs') as [l'|] eqn:EL; [|discriminate]. cbn [option_map] in HR.
    assert (l = (sp0, rc) :: l') as -> by congruence. clear HR.
    assert (exists a args', args = a :: args' /\ vs' = map promote args' /\ rc_prec rc = lit_prec sp0 /\
              take sp0 (lit_prec sp0) (promote a) = Some (rc_val rc)) as (a & args' & -> & -> & P & T).
    { unfold resolve, dyn_width, dyn_prec, lit_prec in *.
      destruct (sp_width sp0); cbn [negb andb take_width] in *; try discriminate H0;
      destruct (sp_prec sp0); cbn [negb take_prec] in *; try discriminate H0;
      (destruct args as [|a args']; cbn [map] in ER; [discriminate ER|]);
      (match type of ER with context [take ?s ?p ?v] => destruct (take s p v) as [x|] eqn:TK end; [|discriminate ER]);
      apply (f_equal (fun o => match o with Some y => y | None => (rc, vs') end)) in ER;
      inversion ER; subst; exists a, args'; cbn [rc_prec rc_val]; auto. }
    destruct i as [|i]; cbn [nth_error] in *.
    + assert (sp0 = sp) as -> by congruence. exists a, rc. auto.
    + apply (IH args' l'); auto.
Qed.

Lemma starless_params : forall ps, starless ps = true -> length (params ps) = length (convs ps).
Proof.
  induction ps as [|[c| |sp] ps IH]; intro H; auto.
  unfold starless in H. cbn [convs forallb] in H. apply andb_true_iff in H. destruct H as [H0 H].
  change (params (Conv sp :: ps)) with (spec_params sp ++ params ps). rewrite app_length, IH by exact H.
  unfold spec_params, dyn_width, dyn_prec in *. destruct (sp_width sp), (sp_prec sp); try discriminate H0; reflexivity.
Qed.

(** The value taken determines the size of what is pushed. *)
Lemma taken_fits : forall widen sp p a v x, (forall bs, length (widen bs) = 8%nat) -> wf_arg a ->
  take sp p (promote a) = Some x -> take sp p v = Some x -> (forall bs, v <> VaFlt (F80 bs)) -> fits8 (va_bytes widen v).
Proof.
  intros widen sp p a v x Hw Wa T1 T2 NL. unfold fits8. destruct v as [t z|[bs|bs|bs]|q po]; cbn [va_bytes].
  - rewrite le_bytes_length. unfold take in T2. destruct (conv_kind sp) as [n| | | | |] eqn:CK; try discriminate T2.
    destruct (promoted_bytes t =? Z.max 4 n) eqn:E; [|discriminate T2]. unfold promoted_bytes in E.
    unfold conv_kind in CK.
    repeat match type of CK with context [if ?b then _ else _] => destruct b end; try discriminate CK;
      apply (f_equal (fun k => match k with CkInt m => m | _ => 0 end)) in CK; subst n; lia.
  - unfold take in T1, T2. destruct (conv_kind sp); try discriminate T2.
    assert (x = RFlt (F64 bs)) as -> by congruence.
    destruct a as [t z|b|q buf|q buf|q|e q buf]; cbn [promote] in T1; try discriminate T1.
    destruct (zlen b =? 4) eqn:Z4; [discriminate T1|]. destruct (zlen b =? 8) eqn:Z8; [|discriminate T1].
    assert (b = bs) as -> by congruence. unfold zlen in Z8. lia.
  - rewrite Hw. lia.
  - exfalso. eapply NL. reflexivity.
  - rewrite le_bytes_length. lia.
Qed.

Lemma args_after_deliver : forall widen before meta id ts vs,
  args_after (before ++ deliver widen meta id ts vs) = map (fun '(v, _) => va_bytes widen v) vs.
Proof.
  intros. unfold args_after, deliver. rewrite fold_left_app. cbn [fold_left seen].
  assert (G : forall vs acc, fold_left seen (map (fun '(v, junk) => LPush (va_bytes widen v) junk) vs) acc
    = acc ++ map (fun '(v, _) => va_bytes widen v) vs).
  { induction vs0 as [|[v j] vs0 IH]; intro acc; cbn [map fold_left seen]; [now rewrite app_nil_r|].
    rewrite IH, <- app_assoc. reflexivity. }
  apply G.
Qed.

Lemma usable_deliver : forall widen before meta id ts vs, usable before ->
  Forall (fun '(v, _) => fits8 (va_bytes widen v)) vs -> zlen vs <= most_args ->
  usable (before ++ deliver widen meta id ts vs).
Proof.
  intros widen before meta id ts vs [U1 U2] F L. split.
  - apply Forall_app. split; auto. constructor; [exact I|].
    apply Forall_forall. intros o Ho. apply in_map_iff in Ho. destruct Ho as ([v j] & <- & Hin).
    rewrite Forall_forall in F. apply (F _ Hin).
  - intro k. rewrite firstn_app. destruct (k - length before)%nat as [|k'] eqn:K.
    + cbn [firstn]. rewrite app_nil_r. apply U2.
    + rewrite firstn_all2 by lia. unfold deliver. cbn [firstn].
      rewrite firstn_map. fold (deliver widen meta id ts (firstn k' vs)). rewrite args_after_deliver.
      unfold zlen in *. rewrite map_length, firstn_length. lia.
Qed.

Lemma reserve_fields : forall s n junk s', lm_reserve s n junk = Some s' ->
  lm_meta s' = lm_meta s /\ lm_id s' = lm_id s /\ lm_rdtsc s' = lm_rdtsc s.
Proof.
  intros s n junk s' H. unfold lm_reserve in H. destruct (n <=? lm_cap s).
  { assert (s = s') as -> by congruence. auto. }
  destruct (grow 32 (lm_cap s) n); [|discriminate H]. destruct (lm_ext s).
  - destruct (0 <=? lm_num s - initial_size); [|discriminate H].
    destruct (bk_read b 0 _); [|discriminate H]. destruct (bk_write _ 0 l); [|discriminate H].
    apply (f_equal (fun o => match o with Some y => y | None => s end)) in H. subst s'. auto.
  - apply (f_equal (fun o => match o with Some y => y | None => s end)) in H. subst s'. auto.
Qed.

Lemma push_fields : forall s bs junk s', lm_push s bs junk = Some s' ->
  lm_meta s' = lm_meta s /\ lm_id s' = lm_id s /\ lm_rdtsc s' = lm_rdtsc s.
Proof.
  intros s bs junk s' H. unfold lm_push in H.
  destruct (if lm_num s =? lm_cap s then lm_reserve s (lm_num s + 1) junk else Some s) as [s1|] eqn:E; [|discriminate H].
  assert (lm_meta s1 = lm_meta s /\ lm_id s1 = lm_id s /\ lm_rdtsc s1 = lm_rdtsc s) as (<- & <- & <-).
  { destruct (lm_num s =? lm_cap s); [eapply reserve_fields; eauto|]. assert (s = s1) as -> by congruence. auto. }
  destruct (lm_num s1 <? initial_size).
  - destruct (bk_write (lm_raw s1) _ bs); [|discriminate H].
    apply (f_equal (fun o => match o with Some y => y | None => s end)) in H. subst s'. auto.
  - destruct (lm_ext s1); [|discriminate H]. destruct (bk_write b _ bs); [|discriminate H].
    apply (f_equal (fun o => match o with Some y => y | None => s end)) in H. subst s'. auto.
Qed.

Lemma deliver_fields : forall widen vs meta id ts s s', lm_run s (deliver widen meta id ts vs) = Some s' ->
  lm_meta s' = meta /\ lm_id s' = id /\ lm_rdtsc s' = ts.
Proof.
  intros widen vs meta id ts s s' H. unfold deliver in H. cbn [lm_run lm_step] in H.
  assert (G : forall vs a, lm_run a (map (fun '(v, junk) => LPush (va_bytes widen v) junk) vs) = Some s' ->
    lm_meta s' = lm_meta a /\ lm_id s' = lm_id a /\ lm_rdtsc s' = lm_rdtsc a).
  { clear. induction vs as [|[v j] vs IH]; intros a H; cbn [map lm_run lm_step] in H.
    - assert (a = s') as -> by congruence. auto.
    - destruct (lm_push a (va_bytes widen v) j) as [b|] eqn:P; [|discriminate H].
      destruct (IH b H) as (-> & -> & ->). eapply push_fields; eauto. }
  destruct (G vs _ H) as (-> & -> & ->). auto.
Qed.

Lemma nth_Forall2 : forall A B (R : A -> B -> Prop) l1 l2 i x, Forall2 R l1 l2 -> nth_error l1 i = Some x ->
  exists y, nth_error l2 i = Some y /\ R x y.
Proof.
  intros A B R l1 l2 i x H. revert i. induction H as [|a b l1 l2 HR H IH]; intros [|i] Hi; cbn in *; try discriminate Hi.
  - exists b. split; [reflexivity|]. congruence.
  - auto.
Qed.

Lemma resolved_len : forall ps vs l, resolved ps vs = Some l -> length l = length (convs ps).
Proof.
  induction ps as [|[c| |sp] ps IH]; intros vs l H; cbn [resolved convs] in *.
  - assert (l = []) as -> by congruence. reflexivity.
  - eauto.
  - eauto.
  - destruct (resolve sp vs) as [[rc vs']|]; [|discriminate]. destruct (resolved ps vs') as [l'|] eqn:E; [|discriminate].
    cbn [option_map] in H. assert (l = (sp, rc) :: l') as -> by congruence. cbn [length]. f_equal. eauto.
Qed.

(** A long double is handed on as the int -1, Log.h:826-829. *)
Theorem C34_long_double : forall widen before meta id ts vs i bs junk, usable before ->
  Forall (fun '(v, _) => fits8 (va_bytes widen v)) vs -> zlen vs <= most_args -> nth_error vs i = Some (VaFlt (F80 bs), junk) ->
  exists s, lm_run lm_init (before ++ deliver widen meta id ts vs) = Some s /\ lm_num s = zlen vs /\
    lm_get s (Z.of_nat i) 4 = Some [255; 255; 255; 255].
Proof.
  intros widen before meta id ts vs i bs junk U F L E.
  destruct (C34_kept _ (usable_deliver widen before meta id ts vs U F L)) as (s & R & N & G & _). exists s.
  rewrite args_after_deliver in N, G. split; [exact R|]. split; [rewrite N; unfold zlen; now rewrite map_length|].
  apply (G i [255; 255; 255; 255]). rewrite nth_error_map, E. reflexivity.
Qed.
Print Assumptions C34_long_double.

(** Statements without [*] and without long doubles: the i-th argument of the
    statement is read at position i. *)
Theorem C34_callback_partial : forall widen conv ps args text, (forall bs, length (widen bs) = 8%nat) ->
  defined conv ps args text -> backend_ok ps -> Forall2 harmless (params ps) args ->
  starless ps = true -> has_long_double ps = false ->
  printed_with conv (render ps) args text (fun pushed => received widen pushed (fun s =>
    lm_num s = zlen args /\
    forall i a, nth_error args i = Some a -> exists sp bs, nth_error (convs ps) i = Some sp /\
      lm_get s (Z.of_nat i) (length bs) = Some bs /\ same_value widen sp a bs)).
Proof.
  intros widen conv ps args text Hw HD HB HH HS HL m p id ts mout o file line level.
  destruct (message_delivered conv ps args text HD HB HH m p id ts mout o file line level)
    as (nib & n & pts & mc & r & E1 & E2 & E3 & E4 & E5).
  exists nib, n, pts, mc, r. split; [exact E1|]. split; [exact E2|]. split; [exact E3|]. split; [exact E4|].
  intros m' o' lim Hm Hl. destruct (E5 m' o' lim Hm Hl) as (pushed & E & l & R & G). exists pushed. split; [exact E|].
  clear E E1 E2 E3 E4 E5 Hm Hl. destruct HD as (_ & _ & WA & _ & LA & _).
  rewrite (starless_params ps HS) in LA. pose proof (resolved_len _ _ _ R) as LL. pose proof (Forall2_len _ _ _ _ _ G) as LP.
  assert (AT : forall i a, nth_error args i = Some a -> exists sp v x, nth_error (convs ps) i = Some sp /\
    nth_error pushed i = Some v /\ take sp (lit_prec sp) (promote a) = Some x /\ take sp (lit_prec sp) v = Some x /\
    fits8 (va_bytes widen v)).
  { intros i a Ha. assert (i < length args)%nat by (apply nth_error_Some; congruence).
    destruct (nth_error (convs ps) i) as [sp|] eqn:Hi; [|apply nth_error_None in Hi; lia].
    destruct (resolved_at ps args l HS R i sp Hi) as (a' & rc & Ha' & Hl & P & T).
    assert (a' = a) as -> by congruence. destruct (nth_Forall2 _ _ _ _ _ _ _ G Hl) as (v & Hv & GV).
    unfold gives in GV. cbn [fst snd] in GV. rewrite P in GV. exists sp, v, (rc_val rc). splits; auto.
    eapply taken_fits; eauto.
    - rewrite Forall_forall in WA. apply WA. eapply nth_error_In; eauto.
    - intros bs ->. unfold has_long_double in HL. apply not_true_iff_false in HL. apply HL. apply existsb_exists.
      exists sp. split; [eapply nth_error_In; eauto|]. unfold take in GV. destruct (conv_kind sp); auto; discriminate GV. }
  intros before meta id' ts' junks U LJ.
  assert (LN : length pushed = length args) by lia.
  assert (US : usable (before ++ deliver widen meta id' ts' (combine pushed junks))).
  { apply usable_deliver; auto.
    - apply Forall_forall. intros [v j] Hin. apply in_combine_l in Hin. apply In_nth_error in Hin. destruct Hin as (i & Hi).
      destruct (nth_error args i) as [a|] eqn:Ha.
      + destruct (AT i a Ha) as (sp & v' & x & _ & Hv & _ & _ & F). assert (v' = v) as -> by congruence. exact F.
      + apply nth_error_None in Ha. assert (i < length pushed)%nat by (apply nth_error_Some; congruence). lia.
    - destruct HB as (_ & _ & _ & _ & HC & _). unfold zlen in *. rewrite combine_length.
      change most_args with 1342177280. lia. }
  destruct (C34_kept _ US) as (s & RS & N & GT & _). exists s. split; [exact RS|].
  rewrite args_after_deliver in N, GT.
  rewrite lm_run_app in RS. destruct (lm_run lm_init before) as [s0|]; [|discriminate RS].
  destruct (deliver_fields _ _ _ _ _ _ _ RS) as (-> & -> & ->). splits; auto.
  - rewrite N. unfold zlen. rewrite map_length, combine_length. lia.
  - intros i a Ha. destruct (AT i a Ha) as (sp & v & x & Hs & Hv & T1 & T2 & _).
    exists sp, (va_bytes widen v). split; [exact Hs|]. split.
    + apply GT. rewrite nth_error_map.
      assert (exists j, nth_error (combine pushed junks) i = Some (v, j)) as (j & ->).
      { clear - Hv LJ. revert i junks LJ Hv. induction pushed as [|w pushed IH]; intros [|i] [|j junks] LJ Hv; try discriminate.
        - cbn in Hv |- *. assert (w = v) as -> by congruence. eauto.
        - cbn in *. apply IH; auto. }
      reflexivity.
    + exists v, x. auto.
Qed.
Print Assumptions C34_callback_partial.

(** C34 in full: for every statement, the int arguments are read at their
    positions. *)
Definition C34_full : Prop := forall widen conv ps args text, (forall bs, length (widen bs) = 8%nat) ->
  defined conv ps args text -> backend_ok ps -> Forall2 harmless (params ps) args ->
  printed_with conv (render ps) args text (fun pushed => received widen pushed (fun s =>
    forall i v, nth_error args i = Some (AInt (Ity true 4) v) -> lm_get s (Z.of_nat i) 4 = Some (le_bytes 4 v))).

(** The arguments pushed, computed. *)
Definition journey_pushed (conv : rconv -> list Z) (fmt : list Z) (args : list arg) : option (list va) :=
  match analyze fmt, createMicroCode fmt [] 0 0 with
  | Some (nib, _, pts), Some mc =>
    match log_record (fun _ => 0) 1000 0 0 pts args with
    | Some r =>
      let c := compress (map aty_of args) nib pts (lr_mem r) 1016 (fun _ => 0) 0 in
      option_map (fun x => snd (fst x)) (print_message conv mc (cs_mem c) 0 (cs_out c))
    | None => None
    end
  | _, _ => None
  end.

Lemma printed_pushed : forall conv fmt args text given, printed_with conv fmt args text given ->
  exists pushed, journey_pushed conv fmt args = Some pushed /\ given pushed.
Proof.
  intros conv fmt args text given H.
  destruct (H (fun _ => 0) 1000 0 0 (fun _ => 0) 0 [] 0 0) as (nib & n & pts & mc & r & EA & EM & ER & _ & HM).
  unfold journey_pushed. rewrite EA, EM, ER.
  destruct (HM _ 0 _ (fun i _ => eq_refl) (Z.le_refl _)) as (pushed & E & P).
  cbv zeta in *. rewrite Z.add_0_l, Z.sub_0_r in E.
  change (1000 + 16) with 1016 in E. rewrite E. exists pushed. split; [reflexivity|exact P].
Qed.

Lemma empty_usable : usable [].
Proof. split; [constructor|]. intro k. rewrite firstn_nil. cbv. discriminate. Qed.

(** "%*d" with 5 and 3: only the 3 is pushed, so it is found at position 0. *)
Theorem C34_star_refuted : ~ C34_full.
Proof.
  intro H. specialize (H (fun _ => repeat 0 8) show [Conv (Spec [] WStar PrNone [] 100)] [AInt (Ity true 4) 5; AInt (Ity true 4) 3] [5; 3]
    (fun _ => eq_refl)).
  assert (D : defined show [Conv (Spec [] WStar PrNone [] 100)] [AInt (Ity true 4) 5; AInt (Ity true 4) 3] [5; 3]).
  { unfold defined. concrete. }
  assert (B : backend_ok [Conv (Spec [] WStar PrNone [] 100)]) by (unfold backend_ok; splits; vm_compute; congruence).
  specialize (H D B). destruct (printed_pushed _ _ _ _ _ (H ltac:(repeat constructor; intros n E; vm_compute in E; injection E as <-; lia)))
    as (pushed & EP & P).
  vm_compute in EP. injection EP as <-.
  destruct (P [] None 0 0 [fun _ => 0] empty_usable eq_refl) as (s & R & _ & _ & _ & G).
  specialize (G 0%nat 5 eq_refl).
  vm_compute in R. injection R as <-. vm_compute in G. discriminate G.
Qed.
Print Assumptions C34_star_refuted.

(** One object for three messages of 12, 3 and 41 arguments: the first and the
    last need more room than the object has. *)
Definition pushes (n from : nat) : list lop :=
  LReset (Some 1) 1 1 :: map (fun i => LPush (le_bytes (if Nat.even i then 4 else 8) (Z.of_nat i)) (fun _ => 170)) (seq from n).

Example C34_instance :
  match lm_run lm_init (pushes 12 0 ++ pushes 3 100 ++ pushes 41 200) with
  | Some s => lm_num s = 41 /\ lm_cap s = 80 /\ lm_get s 0 4 = Some [200; 0; 0; 0] /\ lm_get s 9 8 = Some [209; 0; 0; 0; 0; 0; 0; 0]
      /\ lm_get s 10 4 = Some [210; 0; 0; 0] /\ lm_get s 39 8 = Some [239; 0; 0; 0; 0; 0; 0; 0]
      /\ lm_get s 40 4 = Some [240; 0; 0; 0] /\ lm_get s 80 4 = None
  | None => False
  end.
Proof. vm_compute. splits; reflexivity. Qed.

(** "%d:%s:%f" with -7, "hi" and a double. *)
Example C34_callback_instance :
  let ps := [Conv (Spec [] WNone PrNone [] 100); Lit 58; Conv (Spec [] WNone PrNone [] 115); Lit 58; Conv (Spec [] WNone PrNone [] 102)] in
  let args := [AInt (Ity true 4) (-7); AStr 50 [104; 105; 0]; AFlt [1; 2; 3; 4; 5; 6; 7; 8]] in
  defined show ps args [-7; 58; 104; 105; 58; 1; 2; 3; 4; 5; 6; 7; 8] /\ backend_ok ps /\ Forall2 harmless (params ps) args /\
  starless ps = true /\ has_long_double ps = false /\
  match journey_pushed show (render ps) args with
  | Some [v0; VaPtr p (PoChars s); v2] => v0 = VaInt (Ity true 4) (-7) /\ s = [104; 105; 0] /\ v2 = VaFlt (F64 [1; 2; 3; 4; 5; 6; 7; 8])
      /\ match lm_run lm_init (pushes 30 7 ++ deliver (fun _ => []) (Some 5) 6 7 (map (fun v => (v, fun _ => 0)) [v0; VaPtr p (PoChars s); v2])) with
         | Some s => lm_num s = 3 /\ lm_id s = 6 /\ lm_get s 0 4 = Some [249; 255; 255; 255] /\ lm_get s 2 8 = Some [1; 2; 3; 4; 5; 6; 7; 8]
         | None => False
         end
  | _ => False
  end.
Proof.
  cbv zeta. split; [unfold defined; concrete|]. split; [unfold backend_ok; splits; vm_compute; congruence|].
  split; [repeat constructor|]. split; [reflexivity|]. split; [reflexivity|].
  vm_compute. splits; reflexivity.
Qed.

(** Storing outside of a block is not defined, and inside of it changes nothing
    but the bytes stored. *)
Theorem C34_block_bounds : forall b off bs,
  (bk_write b off bs = None <-> off < 0 \/ bk_size b < off + zlen bs) /\
  (forall b', bk_write b off bs = Some b' -> bk_size b' = bk_size b /\ load (bk_mem b') off (length bs) = bs /\
     forall y, y < off \/ off + zlen bs <= y -> bk_mem b' y = bk_mem b y) /\
  (forall n, bk_read b off n = None <-> off < 0 \/ bk_size b < off + Z.of_nat n).
Proof.
  intros b off bs. unfold bk_write, bk_read. splits.
  - destruct ((0 <=? off) && (off + zlen bs <=? bk_size b)) eqn:E; split; intro H; try discriminate H; auto; lia.
  - intros b' H. destruct ((0 <=? off) && (off + zlen bs <=? bk_size b)) eqn:E; [|discriminate H]. injection H as <-.
    cbn [bk_size bk_mem]. splits; auto; [apply load_store_same|]. intros y Hy. unfold store.
    replace ((off <=? y) && (y <? off + zlen bs)) with false by lia. reflexivity.
  - intro n. destruct ((0 <=? off) && (off + Z.of_nat n <=? bk_size b)) eqn:E; split; intro H; try discriminate H; auto; lia.
Qed.
Print Assumptions C34_block_bounds.
