(** C68 in executions of the running system: what is written at a time are whole items of the log. *)
From Verif Require Import Base BaseProofs Chars FrontFmt Args Printf ArgsProofs DecodeProofs Encoder Wire EncoderProofs Decoder FileSpec
  DecoderProofs Prop_Decoder Ordered Prop_Ordered Disk Prop_Disk Ring RingProofs Runtime RtRing RtBuf RtInv RtSafe RtFile Prop_Runtime Prop_Counters Prop_Encoder RtRuns Prop_RuntimeRuns.
From Coq Require Import Permutation.

(** ** Proof *)

(** The items of a file, write by write. *)
Definition by_writes (small : Prop) (t : rt) : Prop :=
  exists gss, Forall2 (wires small (t_sites t)) gss (t_subm t) /\ concat gss = t_gfile t ++ t_gflight t /\ Forall (fun gs => gs <> []) gss.

Definition leaves (t t' : rt) : Prop :=
  t_subm t' = t_subm t /\ t_gfile t' ++ t_gflight t' = t_gfile t ++ t_gflight t /\ exists x, t_sites t' = t_sites t ++ x.

Lemma leaves_by : forall small t t', leaves t t' -> by_writes small t -> by_writes small t'.
Proof.
  intros small t t' (A & B & x & C) (gss & F & G & NE). exists gss. rewrite A, B, C. splits; auto.
  clear - F. induction F; constructor; auto using wires_more.
Qed.

Ltac lv := solve [unfold leaves; rt_cbn; splits; auto; try (exists []; now rewrite app_nil_r)].

Lemma on_ring_leaves : forall j l t t', on_ring j l t = Some t' -> leaves t t'.
Proof.
  intros j l t t' E. unfold on_ring in E. destruct (nth_error (t_bufs t) j); [|discriminate].
  destruct (ring_step _ _ _); [|discriminate]. apply some_inj in E. subst t'. lv.
Qed.

Lemma notify_leaves : forall t t', leaves t t' -> leaves t (notify t').
Proof. intros t t' K. unfold notify. destruct (t_waiters t') as [|w ws]; [exact K|]. destruct (w_switch w); exact K. Qed.

Lemma thread_by : forall small t t', inv small t -> k_step t = Some t' -> by_writes small t -> by_writes small t'.
Proof.
  intros small t t' H E R. unfold k_step in E. cbv zeta in E. destruct (t_kpc t) eqn:EP.
  - apply (leaves_by small t t'); auto. apply some_inj in E. subst t'. lv.
  - apply (leaves_by small t t'); auto. apply some_inj in E. subst t'. unfold k_dict.
    destruct (t_nextp t <? zlen (t_sites t)); [destruct (encodeNewDictionaryEntries _ _ _) as [[e n] ret]|]; lv.
  - apply (leaves_by small t t'); auto. destruct (t_kfull t); [apply some_inj in E; subst; lv|].
    destruct (t_bufs t) eqn:EB; [apply some_inj in E; subst; lv|].
    destruct (on_ring (Z.to_nat (t_ki t)) LPeek t) as [t1|] eqn:ER; [|discriminate]. apply some_inj in E. subst t'.
    exact (on_ring_leaves _ _ _ _ ER).
  - apply (leaves_by small t t'); auto. destruct (nth_error (t_bufs t) (Z.to_nat (t_ki t))) as [b|] eqn:EB; [|discriminate].
    destruct (c_pc (r_c (b_ring b))) eqn:EC; try discriminate; try exact (on_ring_leaves _ _ _ _ E).
    destruct (0 <? n); [apply some_inj in E; subst; lv|].
    destruct (on_ring _ _ _) as [t1|] eqn:ER; [|discriminate]. apply some_inj in E. subst t'.
    exact (on_ring_leaves _ _ _ _ ER).
  - apply (leaves_by small t t'); auto. destruct (nth_error (t_bufs t) (Z.to_nat (t_ki t))) as [b|] eqn:EB; [|discriminate].
    destruct (c_pc (r_c (b_ring b))) eqn:EC; try discriminate. destruct (n =? 0) eqn:EN.
    + apply some_inj in E. subst t'. lv.
    + unfold k_encode in E.
      destruct (encodeLogMsgs (t_en t) (s_data (r_mem (b_ring b))) (c_pos (r_c (b_ring b))) (Z.min RELEASE n) (b_id b) (t_kwrap t) (t_shadow t)) as [[e read] cnt].
      destruct (read =? 0); [apply some_inj in E; subst; lv|].
      destruct (ring_run _ _ _); [|discriminate]. apply some_inj in E. subst. lv.
  - apply (leaves_by small t t'); auto. destruct (nth_error (t_bufs t) (Z.to_nat (t_ki t))) as [b|] eqn:EB; [|discriminate].
    destruct (c_pc (r_c (b_ring b))) eqn:EC; try discriminate.
    destruct (on_ring _ _ _) as [t1|] eqn:ER; [|discriminate]. apply on_ring_leaves in ER.
    destruct (nth_error (t_bufs t1) (Z.to_nat (t_ki t))) as [b'|] eqn:EB'; [|discriminate].
    destruct (c_pc (r_c (b_ring b'))) eqn:EC'; apply some_inj in E; subst t'; try exact ER.
    unfold k_delete. cbv zeta. destruct (remove_at _ _); exact ER.
  - apply (leaves_by small t t'); auto. apply some_inj in E. subst t'. lv.
  - apply (leaves_by small t t'); auto. apply some_inj in E. subst t'. unfold k_idle.
    destruct (encoded t =? 0); [|lv]. destruct (t_sync t); try lv; [|apply notify_leaves; lv].
    destruct (t_outst t); [lv|apply notify_leaves; lv].
  - apply (leaves_by small t t'); auto. unfold k_io in E. destruct (t_outst t) eqn:EO.
    + destruct (t_flight t) eqn:EF.
      * apply some_inj in E. subst t'. unfold k_finish_io. destruct (t_sync t); try lv; apply notify_leaves; lv.
      * destruct (t_kfull t); [discriminate|]. apply some_inj in E. subst t'. lv.
    + apply some_inj in E. subst t'. lv.
  - apply some_inj in E. subst t'. unfold k_write. destruct (encoded t =? 0) eqn:E0; [apply (leaves_by small t); auto; lv|].
    cbn [swapBuffer]. destruct R as (gss & F & G & NE). exists (gss ++ [t_glog t]). rt_cbn. inv_split H. splits.
    + apply Forall2_app; [exact F|constructor; [exact HGl|constructor]].
    + rewrite concat_app, G. cbn [concat]. now rewrite app_nil_r, app_assoc.
    + apply Forall_app. split; auto. constructor; [|constructor]. intro X. rewrite X in HGl. destruct HGl as (bss & W & HB). inversion W; subst. cbn [concat] in HB.
      destruct HEn as ((E1 & E2 & E3 & E4) & E5 & E6). unfold encoded_bytes in HB. apply (f_equal zlen) in HB. rewrite load_zlen in HB. unfold encoded in E0. rewrite zlen_nil in HB. unfold getEncodedBytes in *. lia.
  - discriminate.
Qed.

Lemma step_by : forall small l t t', inv small t -> rt_step l t = Some t' -> l <> RInterrupt -> by_writes small t -> by_writes small t'.
Proof.
  intros small l t t' H E NI R. destruct l; cbn [rt_step] in E; try (eapply thread_by; eassumption); try congruence.
  all: repeat match type of E with
    | context [match ?x with _ => _ end] => destruct x; try discriminate E
    end; try (apply (leaves_by small t t'); [exact (on_ring_leaves _ _ _ _ E)|exact R]).
  all: apply some_inj in E; subst t'.
  all: try (apply (leaves_by small t); [|exact R]; first [lv | apply notify_leaves; lv | unfold leaves; rt_cbn; splits; auto; eexists; reflexivity]).
  - apply (leaves_by small t); [|exact R]. unfold leaves. rt_cbn. rewrite app_nil_r. splits; auto. exists []. now rewrite app_nil_r.
  - exists []. rt_cbn. splits; [constructor|reflexivity|constructor].
Qed.

Lemma reach_by : forall conv text t, reach (normal conv text) t -> by_writes True t.
Proof.
  intros conv text t R. induction R as [m size b1 b2 r u c t H0 H1 H2 H3 E|l t t' R IH HO E].
  - unfold rt_init in E. destruct (encoder _ _ _ _ _ _ _); [|discriminate]. apply some_inj in E. subst t. exists []. splits; [constructor|reflexivity|constructor].
  - apply (step_by True l t t'); auto; [exact (normal_inv _ _ _ R)|]. intros ->. destruct HO as (_ & U & _). unfold uninterrupted in U. congruence.
Qed.

(** The statements known behind some items. *)
Definition knows_all (known : list site) (items : list item) : list site := fold_left knows items known.

Lemma items_ok_app : forall conv a known b, items_ok conv known a -> items_ok conv (knows_all known a) b -> items_ok conv known (a ++ b).
Proof.
  intros conv. induction a as [|it a IH]; intros known b HA HB; [exact HB|]. cbn [app items_ok] in *. destruct HA. split; auto.
Qed.

Lemma gknown_le : forall sites gs k, gok sites k gs -> (k <= length sites)%nat -> (gknown k gs <= length sites)%nat.
Proof.
  intros sites. induction gs as [|[r u c|total ss|tid np xs] gs IH]; intros k G K; cbn [gok gknown] in *; auto.
  - apply IH; auto. lia.
  - destruct G as (G1 & _ & G3). apply IH; auto. apply (f_equal (@length _)) in G1. rewrite firstn_length, skipn_length in G1. lia.
  - apply IH; tauto.
Qed.

(** The items of one write. *)
Lemma write_items : forall conv text sites gs bytes k, Forall site_ok sites ->
  wires True sites gs bytes -> gok sites k gs -> (k <= length sites)%nat ->
  (forall tid np xs, In (GExtent tid np xs) gs -> Forall (fun x => said conv sites x (text x)) xs) ->
  exists items, file_bytes items = bytes /\ items_ok conv (firstn k sites) items /\ knows_all (firstn k sites) items = firstn (gknown k gs) sites /\
    (starts gs -> exists junk cp' r, items = ICheckpoint junk cp' :: r) /\ (gs = [] -> items = []).
Proof.
  intros conv text sites gs bytes k Hok (bss & W & ->). revert k.
  induction W as [|g b gs bss W _ IH]; intros k HG HK HA.
  - exists []. splits; auto; try exact I. intros (? & ? & ? & ? & X). discriminate X.
  - assert (HA' : forall tid np xs, In (GExtent tid np xs) gs -> Forall (fun x => said conv sites x (text x)) xs).
    { intros. eapply HA. right. eauto. }
    cbn [concat]. destruct g as [r u c|total ss|tid np xs]; cbn [wire gok gknown] in *.
    + destruct W as ((T1 & T2 & T3 & T4) & junk & J & ->).
      destruct (IH 0%nat HG ltac:(lia) HA') as (its & I1 & I2 & I3 & _).
      exists (ICheckpoint junk (Checkpoint r u c) :: its). splits.
      * unfold file_bytes in *. cbn [map concat item_bytes cp_rdtsc cp_unixTime cp_cps]. now rewrite I1.
      * cbn [items_ok item_ok cp_rdtsc cp_unixTime cp_cps knows]. splits; auto; try lia.
      * exact I3.
      * eauto.
      * discriminate.
    + destruct HG as (G1 & G2 & G3). destruct W as (-> & W1 & W2).
      assert (LS : (k + length ss <= length sites)%nat).
      { apply (f_equal (@length _)) in G1. rewrite firstn_length, skipn_length in G1. lia. }
      destruct (IH (k + length ss)%nat G3 LS HA') as (its & I1 & I2 & I3 & _).
      assert (EK : knows (firstn k sites) (IDict total ss) = firstn (k + length ss) sites) by (cbn [knows]; rewrite firstn_plus, <- G1; reflexivity).
      exists (IDict total ss :: its). splits.
      * unfold file_bytes in *. cbn [map concat item_bytes]. now rewrite I1.
      * cbn [items_ok]. rewrite EK. split; [|exact I2]. cbn [item_ok]. splits; auto; try lia.
        rewrite G1. apply Forall_firstn. rewrite <- (firstn_skipn k sites) in Hok. apply Forall_app in Hok. exact (proj2 Hok).
      * unfold knows_all in *. cbn [fold_left]. rewrite EK. exact I3.
      * intros (? & ? & ? & ? & X). discriminate X.
      * discriminate.
    + destruct HG as (G1 & G2). destruct W as (W1 & (sbs & W2) & ws & W3 & -> & W4).
      destruct (IH k G2 HK HA') as (its & I1 & I2 & I3 & _).
      assert (HX : Forall (fun x => said conv sites x (text x)) xs) by (eapply HA; left; reflexivity).
      destruct (staged_fmsgs conv sites k (Checkpoint 0 0 []) tid xs ws (map text xs) W3 (staged_ranges _ _ _ W2) G1) as (fs & F1 & F2 & F3).
      { clear - HX. induction HX; cbn [map]; constructor; auto. }
      exists (IExtent tid np fs :: its). splits.
      * unfold file_bytes in *. cbn [map concat item_bytes]. now rewrite I1, F1.
      * cbn [items_ok item_ok item_bytes knows]. rewrite F1. splits; auto; try lia.
      * exact I3.
      * intros (? & ? & ? & ? & X). discriminate X.
      * discriminate.
Qed.

Lemma writes_items : forall conv text sites gss bufs, Forall site_ok sites -> Forall2 (wires True sites) gss bufs ->
  forall k, gok sites k (concat gss) -> (k <= length sites)%nat ->
  (forall tid np xs, In (GExtent tid np xs) (concat gss) -> Forall (fun x => said conv sites x (text x)) xs) ->
  exists wss, map file_bytes wss = bufs /\ items_ok conv (firstn k sites) (concat wss) /\
    (starts (concat gss) -> exists junk cp' r, concat wss = ICheckpoint junk cp' :: r).
Proof.
  intros conv text sites gss bufs Hok H. induction H as [|gs buf gss bufs W H IH]; intros k G K SA.
  - exists []. splits; [reflexivity|exact I|]. intros (? & ? & ? & ? & X). discriminate X.
  - cbn [concat] in *. apply gok_app in G. destruct G as [G1 G2].
    destruct (write_items conv text sites gs buf k Hok W G1 K) as (its & I1 & I2 & I3 & I4 & I5); [intros; eapply SA; apply in_or_app; left; eauto|].
    destruct (IH (gknown k gs) G2 (gknown_le sites gs k G1 K)) as (wss & J1 & J2 & J3); [intros; eapply SA; apply in_or_app; right; eauto|].
    exists (its :: wss). cbn [map concat]. rewrite I1, J1. splits; auto.
    + apply items_ok_app; auto. now rewrite I3.
    + intros S. destruct gs as [|g gs].
      * rewrite (I5 eq_refl). cbn [app]. exact (J3 S).
      * destruct (I4 ltac:(destruct S as (r & u & c & gs' & E); cbn [app] in E; injection E as -> _; exists r, u, c, gs; reflexivity)) as (j & cp & r & ->). cbn [app]. eauto.
Qed.

(** ** Theorem *)

(** In every execution the writes to the current file are whole items, together a log. *)
Theorem C68_whole_items : forall conv text t, reach (normal conv text) t -> t_subm t <> [] ->
  exists wss, map file_bytes wss = t_subm t /\ file_ok conv (concat wss) /\
    (t_flight t = [] -> decodes conv (t_file t) (lines_of (concat wss))).
Proof.
  intros conv text t R NE. pose proof (normal_inv _ _ _ R) as H.
  assert (HS : inv_said conv text t) by (eapply reach_said; [|exact R]; intros l0 t0 (_ & _ & _ & D); exact D).
  destruct (reach_by conv text t R) as (gss & F & G & NG). pose proof H as H'. inv_split H'.
  destruct HKn as (K1 & K2 & _). unfold sect in *. destruct HSi as (HSi & _). rewrite app_assoc, <- G in K1, K2.
  apply gok_app in K1. destruct K1 as [K1 _].
  assert (SA : forall tid np xs, In (GExtent tid np xs) (concat gss) -> Forall (fun x => said conv (t_sites t) x (text x)) xs).
  { intros tid np xs HI. destruct xs as [|x0 xs0] eqn:EX; [constructor|]. rewrite <- EX in *.
    assert (HT : 0 <= tid).
    { clear - F HI. induction F as [|gs b gss bs (bss & W & _) _ IH]; cbn [concat] in HI; [destruct HI|]. apply in_app_or in HI. destruct HI as [HI | HI]; [|auto].
      clear - W HI. induction W as [|g b gs bss W _ IH]; [destruct HI|]. destruct HI as [-> | HI]; [|auto]. cbn [wire] in W. lia. }
    assert (HI' : In (GExtent tid np xs) (everything t)).
    { unfold everything, sect. apply in_or_app. right. rewrite app_assoc, <- G. apply in_or_app. now left. }
    destruct (emitted_buf True t tid H HT) as (b & B1 & B2 & k & B3).
    { intro X. assert (Y := emitted_in tid np xs _ x0 HI' ltac:(rewrite EX; now left)). rewrite X in Y. destruct Y. }
    apply Forall_forall. intros x Hx. assert (Y := emitted_in tid np xs _ x HI' Hx). rewrite B3 in Y.
    unfold inv_said in HS. eapply Forall_forall in HS; eauto. cbv beta in HS. eapply Forall_forall in HS; [exact HS|].
    rewrite <- (firstn_skipn k (b_msgs b)). apply in_or_app. now left. }
  destruct (writes_items conv text (t_sites t) gss (t_subm t) HSi F 0%nat K1 ltac:(lia) SA) as (wss & W1 & W2 & W3).
  assert (ST : starts (concat gss)).
  { destruct (concat gss) as [|g gs] eqn:EG.
    - exfalso. destruct F as [|gs b gss bs _ _]; [now apply NE|]. inversion NG; subst. cbn [concat] in EG. apply app_eq_nil in EG. tauto.
    - destruct K2 as (r & u & c & gs' & E). cbn [app] in E. injection E as -> _. exists r, u, c, gs. reflexivity. }
  destruct (W3 ST) as (j & cp & r & EW). exists wss. assert (FO : file_ok conv (concat wss)) by (rewrite EW in *; exact W2).
  splits; auto. intros FL. pose proof (subm_file _ _ H) as SF. unfold in_flight in SF. rewrite FL in SF. cbn [map concat] in SF. rewrite app_nil_r in SF.
  rewrite <- SF, <- W1, <- file_bytes_concat. right.
  destruct (C18_unordered_complete conv new_decoder _ FO) as (d1 & d2 & evs & A & B & C & D). eauto 8.
Qed.
Print Assumptions C68_whole_items.

(** Whatever happened to the writes of an execution to the current file: if what is missing are whole extents, the rest
    is printed as logged. *)
Theorem C68_execution_partial : forall conv text t outs, reach (normal conv text) t -> t_subm t <> [] -> length outs = length (t_subm t) ->
  exists wss, map file_bytes wss = t_subm t /\ (t_flight t = [] -> decodes conv (t_file t) (lines_of (concat wss))) /\
    (Forall clean_loss (combine wss outs) -> forall d,
     exists d1 d2 evs, d_open_file d (disk (combine (t_subm t) outs) []) = Some (d1, true) /\
       decompressUnordered conv d1 = Some (d2, evs, zlen (messages (lines_of (survivors (combine wss outs))))) /\
       map line_of evs = lines_of (survivors (combine wss outs))).
Proof.
  intros conv text t outs R NE HL. destruct (C68_whole_items conv text t R NE) as (wss & W1 & W2 & W3). exists wss. splits; auto.
  intros HC d. rewrite <- W1 in HL |- *. rewrite map_length in HL.
  assert (E : combine (map file_bytes wss) outs = map write_bytes (combine wss outs)).
  { clear - HL. revert outs HL. induction wss as [|w wss IH]; intros [|o outs] HL; try discriminate HL; [reflexivity|]. cbn [map combine]. injection HL as HL. now rewrite IH. }
  rewrite E. apply C68_partial; auto. unfold intended.
  assert (E2 : map fst (combine wss outs) = wss).
  { clear - HL. revert outs HL. induction wss as [|w wss IH]; intros [|o outs] HL; try discriminate HL; [reflexivity|]. cbn [map combine fst]. injection HL as HL. now rewrite IH. }
  now rewrite E2.
Qed.
Print Assumptions C68_execution_partial.

(** Two writes, of three messages and of one: the second fails; or the first is cut off behind the extent of the first
    thread, and a message is missing. *)
Definition two_writes : list rlabel := good_run ++ think 2 ++ log 0 (msg 9 4) ++ think 16 ++ [RIoDone 0].
Definition texts_of (o : option (option (list oline))) : option (list (list Z)) :=
  match o with Some (Some ls) => Some (map sh_text (messages ls)) | _ => None end.

Example C68_execution_instance :
  match demo_run 200 2 two_writes with
  | Some t => map (@length Z) (t_subm t) = [85; 10]%nat /\ t_flight t = [] /\
      texts_of (print_all (disk (combine (t_subm t) [Wrote 85; Wrote 10]) [])) = Some (map (fun n => chars "n=" ++ [n]) [1; 3; 2; 4]) /\
      texts_of (print_all (disk (combine (t_subm t) [Wrote 85; WriteError]) [])) = Some (map (fun n => chars "n=" ++ [n]) [1; 3; 2]) /\
      texts_of (print_all (disk (combine (t_subm t) [Wrote 75; Wrote 10]) [])) = Some (map (fun n => chars "n=" ++ [n]) [1; 3; 4])
  | None => False
  end.
Proof. vm_compute. splits; reflexivity. Qed.

(** What is submitted is what the encoder hands over: the buffer and the length
    swapBuffer returns, with the bytes encoded; the encoder goes on with the other
    buffer, empty. *)
Theorem swap_handed_over : forall t e' out len size, swapBuffer (t_en t) (t_other t) (t_osize t) = (e', (out, len, size)) -> encoded t <> 0 ->
  t_flight (k_write t) = t_flight t ++ [(out, len)] /\ t_other (k_write t) = out /\ t_en (k_write t) = e' /\
  t_subm (k_write t) = t_subm t ++ [load (e_mem (t_en t)) out (Z.to_nat len)] /\ out + size = e_end (t_en t) /\
  e_base e' = t_other t /\ e_wp e' = t_other t /\ e_end e' = t_other t + t_osize t.
Proof.
  intros t e' out len size E N. unfold k_write. apply Z.eqb_neq in N. rewrite N, E. unfold swapBuffer in E. injection E as <- <- <- <-.
  rt_cbn. cbn [e_base e_wp e_end]. unfold encoded, getEncodedBytes in *. splits; auto; try lia.
Qed.
Print Assumptions swap_handed_over.
