(** Concrete runs of the running system, for examples and counterexamples. *)
From Verif Require Import Base BaseProofs Chars FrontFmt Prop_FrontFmt Prop_MicroCode Args Printf ArgsProofs Prop_Args DecodeProofs Encoder Wire EncoderProofs Prop_Message FileSpec
  Ring RingProofs Runtime RtInv RtSafe RtFile Prop_Runtime Prop_Decoder.

(** ** Steps that register nothing leave the statements alone *)

Lemma on_ring_sites : forall j l t t', on_ring j l t = Some t' -> t_sites t' = t_sites t.
Proof.
  intros j l t t' E. unfold on_ring in E. destruct (nth_error (t_bufs t) j); [|discriminate]. destruct (ring_step _ _ _); [|discriminate].
  apply some_inj in E. now subst t'.
Qed.

Lemma notify_sites : forall t, t_sites (notify t) = t_sites t.
Proof. intros. apply notify_fields. Qed.

Lemma step_sites : forall l t t', rt_step l t = Some t' -> (forall s, l <> RRegister s) -> t_sites t' = t_sites t.
Proof.
  intros l t t' E NR. destruct l; cbn [rt_step] in E; try (eapply on_ring_sites; exact E); try (exfalso; eapply NR; reflexivity).
  all: try (repeat match type of E with
    | context [match ?x with _ => _ end] => destruct x; try discriminate E
    end; apply some_inj in E; subst t'; rewrite ?notify_sites; reflexivity).
  - unfold k_step in E. cbv zeta in E. destruct (t_kpc t); try (apply some_inj in E; subst t'); try discriminate; try reflexivity.
    + unfold k_dict. destruct (t_nextp t <? zlen (t_sites t)); [|reflexivity]. destruct (encodeNewDictionaryEntries _ _ _) as [[e n] ret]. reflexivity.
    + destruct (t_kfull t); [apply some_inj in E; now subst t'|]. destruct (t_bufs t); [apply some_inj in E; now subst t'|].
      destruct (on_ring _ _ _) as [t1|] eqn:R; [|discriminate]. apply on_ring_sites in R. apply some_inj in E. now subst t'.
    + destruct (nth_error _ _); [|discriminate]. destruct (c_pc _); try discriminate; try (eapply on_ring_sites; exact E).
      destruct (0 <? n); [apply some_inj in E; now subst t'|].
      destruct (on_ring _ _ _) as [t1|] eqn:R; [|discriminate]. apply on_ring_sites in R. apply some_inj in E. now subst t'.
    + destruct (nth_error _ _); [|discriminate]. destruct (c_pc _); try discriminate. destruct (n =? 0); [apply some_inj in E; now subst t'|].
      unfold k_encode in E. destruct (encodeLogMsgs _ _ _ _ _ _ _) as [[e read] cnt]. destruct (read =? 0); [apply some_inj in E; now subst t'|].
      destruct (ring_run _ _ _); [|discriminate]. apply some_inj in E. now subst t'.
    + destruct (nth_error _ _); [|discriminate]. destruct (c_pc _); try discriminate.
      destruct (on_ring _ _ _) as [t1|] eqn:R; [|discriminate]. apply on_ring_sites in R. destruct (nth_error (t_bufs t1) _); [|discriminate].
      destruct (c_pc _); apply some_inj in E; subst t'; auto. unfold k_delete. cbv zeta. destruct (remove_at _ _); exact R.
    + unfold k_idle. destruct (encoded t =? 0); [|reflexivity]. destruct (t_sync t); try reflexivity; [|now rewrite notify_sites].
      destruct (t_outst t); [reflexivity|now rewrite notify_sites].
    + unfold k_io in E. destruct (t_outst t); [|apply some_inj in E; now subst t'].
      destruct (t_flight t); [|destruct (t_kfull t); [discriminate|]; apply some_inj in E; now subst t'].
      apply some_inj in E. subst t'. unfold k_finish_io. destruct (t_sync t); try reflexivity. now rewrite notify_sites.
    + unfold k_write. destruct (encoded t =? 0); [reflexivity|]. cbn [swapBuffer]. reflexivity.
  - destruct (t_kpc t); try discriminate. destruct (t_flight t); [discriminate|]. destruct (t_outst t && t_kfull t); [|discriminate].
    apply some_inj in E. subst t'. unfold k_finish_io. destruct (t_sync t); try reflexivity. now rewrite notify_sites.
Qed.

Definition plain (l : rlabel) : bool := match l with RRegister _ | RAlloc => false | _ => true end.

Lemma run_reach : forall (ok : rlabel -> rt -> Prop) ls t t', reach ok t -> forallb plain ls = true -> rt_run ls t = Some t' ->
  (forall l s, In l ls -> plain l = true -> t_sites s = t_sites t -> ok l s) -> reach ok t'.
Proof.
  intros ok. induction ls as [|l ls IH]; intros t t' R P E H; cbn [rt_run forallb] in *.
  - apply some_inj in E. now subst t'.
  - apply andb_prop in P. destruct P as (P1 & P2). destruct (rt_step l t) as [t1|] eqn:E1; [|discriminate].
    assert (S1 : t_sites t1 = t_sites t) by (eapply step_sites; [exact E1|]; intros s ->; discriminate P1).
    apply (IH t1); auto.
    + eapply reach_step; eauto. apply H; auto. now left.
    + intros l0 s Hl Hp Hs. apply H; auto; [now right|congruence].
Qed.

(** ** The program of the examples *)

(** One statement, NANO_LOG(NOTICE, "n=%d", n), and [k] threads. *)
Definition msg (ts n : Z) : smsg := SMsg 0 ts [AInt (Ity true 4) n] [0].

Definition log (j : nat) (x : smsg) : list rlabel := RLog j x :: repeat (RProducer j) 22 ++ repeat (RCommitP j) 21.
Definition think (n : nat) : list rlabel := repeat RThread n.

Definition begin (k : nat) : list rlabel := RRegister (fsite 7) :: concat (repeat [RAlloc; RPush 0] k).

Definition first_state (size : Z) : option rt := rt_init (fun _ => 0) size 0 1000 10 11 (repeat 0 8).

Definition demo_run (size : Z) (k : nat) (ls : list rlabel) : option rt :=
  match first_state size with None => None | Some t => match rt_run (begin k) t with None => None | Some t1 => rt_run ls t1 end end.

(** What printf makes of it, numbers being printed as one character. *)
Definition textof (x : smsg) : list Z := match sm_args x with [AInt _ n] => chars "n=" ++ [n] | _ => [] end.

Definition demo_msg_ok (x : smsg) : Prop := exists ts n, x = msg ts n /\ 0 <= ts < 2 ^ 64 /\ 0 < n < 10.

Lemma msg_staged : forall x, demo_msg_ok x -> staged_ok (fsite 7) x /\ zlen (staged_bytes (fsite 7) x) = 20.
Proof.
  intros x (ts & n & -> & H1 & H2).
  assert (Z1 : zlen (staged_bytes (fsite 7) (msg ts n)) = 20) by reflexivity. split; auto.
  unfold staged_ok. rewrite Z1. unfold msg, fsite. cbn [sm_id sm_ts sm_args sm_ns si_types si_params si_nibbles].
  splits; try lia; try reflexivity.
  - constructor; [|constructor]. split; [cbn [it_bytes]; lia|]. unfold in_range, it_bits. cbn. lia.
  - cbn [sizes_ok]. splits; try exact I. intro H; discriminate H.
  - cbn [strings_ok]. splits; try exact I. intro H; discriminate H.
Qed.

Lemma site7_ok : site_ok (fsite 7).
Proof.
  unfold site_ok, fsite. cbn [si_severity si_line si_file si_fmt]. splits; try lia; try (vm_compute; reflexivity);
    repeat (constructor; [unfold nonzero_byte; vm_compute; split; reflexivity|]); constructor.
Qed.

Lemma msg_said : forall x, demo_msg_ok x -> said Prop_Message.show [fsite 7] x (textof x).
Proof.
  intros x (ts & n & -> & H1 & H2). exists (fsite 7), fmt_n, 4. splits; try reflexivity.
  - unfold defined. splits; try reflexivity.
    + constructor; [|constructor]. split; [cbn [it_bytes]; lia|]. unfold in_range, it_bits. cbn. lia.
    + constructor; [|constructor]. exact I.
    + cbn [textof msg sm_args]. assert (D : n = 1 \/ n = 2 \/ n = 3 \/ n = 4 \/ n = 5 \/ n = 6 \/ n = 7 \/ n = 8 \/ n = 9) by lia.
      repeat (destruct D as [-> | D]; [vm_compute; reflexivity|]). subst n. vm_compute. reflexivity.
  - unfold backend_ok. splits; try reflexivity; vm_compute; discriminate.
  - constructor; [exact I|constructor].
Qed.

(** The demo program's labels are proper. *)
Lemma demo_normal : forall l s, plain l = true -> l <> RInterrupt -> t_sites s = [fsite 7] ->
  (forall j x, l = RLog j x -> demo_msg_ok x) -> (forall r u c, l = RRestart r u c -> times_ok r u c) ->
  normal Prop_Message.show textof l s.
Proof.
  intros l s P NI HS HM HR. unfold normal, proper, uninterrupted, small_messages, printable.
  destruct l; splits; auto; try discriminate P; try congruence; try exact I.
  - intros st Hst. specialize (HM j x eq_refl). rewrite HS in Hst. pose proof HM as (ts & n & -> & _). apply some_inj in Hst. subst st. now apply msg_staged.
  - intros st Hst. specialize (HM j x eq_refl). rewrite HS in Hst. pose proof HM as (ts & n & -> & _). apply some_inj in Hst. subst st.
    destruct (msg_staged _ HM) as (_ & ->). reflexivity.
  - rewrite HS. apply msg_said. now apply (HM j).
Qed.

Lemma normal_proper : forall conv text l s, normal conv text l s -> proper l s.
Proof. unfold normal. tauto. Qed.

Lemma begin_run : forall k t, rt_run (begin k) t = rt_run (concat (repeat [RAlloc; RPush 0] k)) (set_sites (t_sites t ++ [fsite 7]) t).
Proof. reflexivity. Qed.

Lemma begin_reach : forall (ok : rlabel -> rt -> Prop) k t t1, reach ok t -> t_sites t = [fsite 7] -> t_nextid t + Z.of_nat k < 2 ^ 31 ->
  (forall s, t_nextid s + 1 < 2 ^ 32 -> ok RAlloc s) -> (forall s, ok (RPush 0) s) ->
  rt_run (concat (repeat [RAlloc; RPush 0] k)) t = Some t1 -> reach ok t1 /\ t_sites t1 = [fsite 7].
Proof.
  intros ok. induction k as [|k IH]; intros t t1 R HS HN HA HP E; cbn [repeat concat app rt_run] in E.
  - apply some_inj in E. now subst t1.
  - cbn [rt_step] in E.
    destruct (nth_error _ 0) as [id|] eqn:EN; [|discriminate].
    eapply IH; [| | | | |exact E]; auto; [|rt_cbn; lia].
    eapply reach_step; [|apply HP|].
    + eapply reach_step; [exact R|apply HA; lia|reflexivity].
    + cbn [rt_step]. rewrite EN. reflexivity.
Qed.

Definition starting (l : rlabel) : bool := match l with RRegister _ | RAlloc | RPush _ => true | _ => false end.

Lemma demo_begin : forall (ok : rlabel -> rt -> Prop) size k t0 t1, 0 <= size <= 1000 -> Z.of_nat k < 1000 ->
  first_state size = Some t0 -> rt_run (begin k) t0 = Some t1 ->
  (forall l s, starting l = true -> normal Prop_Message.show textof l s -> ok l s) -> reach ok t1 /\ t_sites t1 = [fsite 7].
Proof.
  intros ok size k t0 t1 HZ HK E0 E HO. rewrite begin_run in E.
  assert (R0 : reach ok t0).
  { eapply reach_init; [| | | |exact E0]; try lia.
    - intro a. unfold is_byte. lia.
    - unfold times_ok. splits; try lia; try reflexivity. repeat (constructor; [unfold is_byte; lia|]). constructor. }
  assert (F : t_sites t0 = [] /\ t_nextid t0 = 0).
  { unfold first_state, rt_init in E0. destruct (encoder _ _ _ _ _ _ _); [|discriminate]. apply some_inj in E0. now subst t0. }
  destruct F as (F1 & F2). rewrite F1 in E.
  assert (R1 : reach ok (set_sites [fsite 7] t0)).
  { eapply reach_step; [exact R0| |].
    - apply HO with (l := RRegister (fsite 7)); [reflexivity|]. unfold normal, proper, uninterrupted, small_messages, printable. splits; auto; try discriminate.
      + apply site7_ok.
      + rewrite F1. reflexivity.
    - cbn [rt_step]. now rewrite F1. }
  apply (begin_reach ok k _ t1 R1 eq_refl ltac:(rt_cbn; lia)
    ltac:(intros s0 HN; apply HO; [reflexivity|]; unfold normal, proper, uninterrupted, small_messages, printable; splits; auto; discriminate)
    ltac:(intros s0; apply HO; [reflexivity|]; unfold normal, proper, uninterrupted, small_messages, printable; splits; auto; discriminate) E).
Qed.

Lemma demo_reach : forall (ok : rlabel -> rt -> Prop) size k ls t, 0 <= size <= 1000 -> Z.of_nat k < 1000 ->
  forallb plain ls = true -> demo_run size k ls = Some t ->
  (forall l s, normal Prop_Message.show textof l s -> ok l s) ->
  (forall l s, In l ls -> plain l = true -> t_sites s = [fsite 7] -> ok l s) -> reach ok t.
Proof.
  intros ok size k ls t HZ HK P E HO H. unfold demo_run in E. destruct (first_state size) as [t0|] eqn:E0; [|discriminate].
  destruct (rt_run (begin k) t0) as [t1|] eqn:E1; [|discriminate].
  destruct (demo_begin ok size k t0 t1 HZ HK E0 E1 ltac:(auto)) as (R2 & S2).
  eapply run_reach; [exact R2|exact P|exact E|]. intros l s Hl Hp Hs. apply H; auto. congruence.
Qed.

(** Runs in which every step is tested. *)
Fixpoint rt_runb (chk : rlabel -> rt -> bool) (ls : list rlabel) (t : rt) : option rt :=
  match ls with
  | [] => Some t
  | l :: ls' => if chk l t then match rt_step l t with Some t' => rt_runb chk ls' t' | None => None end else None
  end.

Definition demo_checked (chk : rlabel -> rt -> bool) (size : Z) (k : nat) (ls : list rlabel) : option rt :=
  match first_state size with None => None | Some t => match rt_run (begin k) t with None => None | Some t1 => rt_runb chk ls t1 end end.

Lemma runb_reach : forall (ok : rlabel -> rt -> Prop) chk ls t t', reach ok t -> forallb plain ls = true -> rt_runb chk ls t = Some t' ->
  (forall l s, In l ls -> plain l = true -> t_sites s = t_sites t -> chk l s = true -> ok l s) -> reach ok t' /\ t_sites t' = t_sites t.
Proof.
  intros ok chk. induction ls as [|l ls IH]; intros t t' R P E H; cbn [rt_runb forallb] in *.
  - apply some_inj in E. now subst t'.
  - apply andb_prop in P. destruct P as (P1 & P2). destruct (chk l t) eqn:EC; [|discriminate]. destruct (rt_step l t) as [t1|] eqn:E1; [|discriminate].
    assert (S1 : t_sites t1 = t_sites t) by (eapply step_sites; [exact E1|]; intros s ->; discriminate P1).
    rewrite <- S1. apply (IH t1); auto.
    + eapply reach_step; eauto. apply H; auto. now left.
    + intros l0 s Hl Hp Hs. apply H; auto; [now right|congruence].
Qed.
