(** C17, C36, C37: instances, and what a signal breaks. *)
From Verif Require Import Base BaseProofs Chars FrontFmt Args Printf DecodeProofs Encoder Wire EncoderProofs Decoder FileSpec Prop_Decoder
  Ring RingProofs Prop_Ring Runtime RtInv RtSafe RtFile Prop_Runtime RtRuns.

(** ** The full statements: every signal *)

Definition C17_statement : Prop := forall t, reach proper t -> Forall (good_file (t_sites t)) (t_olds t ++ [t_file t]).

Definition C36_statement : Prop := forall t, reach proper t ->
  exists done, t_file t = concat done /\
    t_subm t = done ++ map (fun w => load (e_mem (t_en t)) (fst w) (Z.to_nat (snd w))) (t_flight t).

Definition C37_statement : Prop := forall conv text t, reach (fun l t => proper l t /\ printable conv text l t) t ->
  exists lss, Forall2 (decodes conv) (t_olds t ++ [t_file t]) lss /\
    (forall b, In b (t_bufs t ++ t_gone t) -> exists k,
      Forall2 (shows (t_sites t) text (b_id b)) (firstn k (b_msgs b)) (concat (map (tid_lines (b_id b)) lss)) /\
      (drained t -> (length (b_msgs b) <= k)%nat)) /\
    (forall id, 0 <= id -> ~ In id (map b_id (t_bufs t ++ t_gone t)) -> concat (map (tid_lines id) lss) = []).

(** The first write is slow; twelve messages fill the other buffer; the thread waits in
    aio_suspend; a signal ends the wait; the thread writes that buffer as well and puts the
    rest of the messages over the first, which only then is written. *)
Definition signal_run : list rlabel :=
  think 11 ++ concat (map (fun k => log 0 (msg k 7)) [1; 2; 3; 4; 5; 6; 7; 8; 9; 10; 11; 12]) ++ think 7 ++ [RInterrupt] ++ think 7 ++ [RIoDone 0].

Lemma signal_ends : exists t, demo_run 100 1 signal_run = Some t /\
  t_file t = [14; 25; 0; 0; 0; 17; 0; 9; 1; 7; 17; 0; 1; 1; 7; 17; 0; 1; 1; 7;
           17; 0; 1; 1; 7; 0; 0; 0; 0; 0; 0; 0; 0; 109; 0; 0; 0; 1; 0; 0; 0;
           2; 7; 0; 0; 0; 5; 0; 5; 0; 97; 46; 99; 99; 0; 110; 61; 37; 100; 0] /\
  (exists x, t_subm t = [[3; 10; 0; 0; 0; 0; 0; 0; 0; 11; 0; 0; 0; 0; 0; 0; 0; 0; 0; 0; 0;
           0; 0; 0; 0; 0; 0; 0; 0; 0; 0; 0; 0; 109; 0; 0; 0; 1; 0; 0; 0; 2;
           7; 0; 0; 0; 5; 0; 5; 0; 97; 46; 99; 99; 0; 110; 61; 37; 100; 0]; x]) /\
  (exists w, t_flight t = [w]) /\ t_olds t = [].
Proof.
  destruct (demo_run 100 1 signal_run) as [t|] eqn:E.
  - exists t. split; [reflexivity|].
    assert (X : match demo_run 100 1 signal_run with Some t => Some (t_file t, t_subm t, t_flight t, t_olds t) | None => None end =
      Some (t_file t, t_subm t, t_flight t, t_olds t)) by now rewrite E.
    vm_compute in X. inversion X as [[X1 X2 X3 X4]]. splits; eauto.
  - exfalso. assert (X : match demo_run 100 1 signal_run with Some _ => true | None => false end = true) by (vm_compute; reflexivity).
    rewrite E in X. discriminate X.
Qed.

Lemma in_logs : forall A (f : A -> list rlabel) l ks, In l (concat (map f ks)) -> exists k, In k ks /\ In l (f k).
Proof.
  intros A f l ks H. apply in_concat in H. destruct H as (x & H1 & H2). apply in_map_iff in H1. destruct H1 as (k & <- & H1). eauto.
Qed.

Lemma in_log : forall l j x, In l (log j x) -> l = RLog j x \/ l = RProducer j \/ l = RCommitP j.
Proof.
  intros l j x H. unfold log in H. destruct H as [<- | H]; auto. apply in_app_or in H. destruct H as [H | H]; apply repeat_spec in H; auto.
Qed.

(** The labels of a run are checked one by one. *)
Definition demo_label (l : rlabel) : bool :=
  match l with
  | RLog j (SMsg 0 ts [AInt (Ity true 4) n] [0]) => (0 <=? ts) && (ts <? 1000) && (0 <? n) && (n <? 10)
  | RLog _ _ | RRegister _ | RAlloc => false
  | RRestart r u c => (0 <=? r) && (r <? 1000) && (0 <=? u) && (u <? 1000) && (length c =? 8)%nat && forallb (fun b => (0 <=? b) && (b <? 256)) c
  | _ => true
  end.

Lemma demo_label_plain : forall l, demo_label l = true -> plain l = true.
Proof. destruct l; auto. Qed.

Ltac bools := repeat match goal with
  | H : _ && _ = true |- _ => apply andb_prop in H; destruct H
  | H : (_ <=? _) = true |- _ => apply Z.leb_le in H
  | H : (_ <? _) = true |- _ => apply Z.ltb_lt in H
  | H : (_ =? _)%nat = true |- _ => apply Nat.eqb_eq in H
  end.

Lemma demo_label_ok : forall l s, demo_label l = true -> t_sites s = [fsite 7] ->
  (l <> RInterrupt -> normal Prop_Message.show textof l s) /\ proper l s /\ printable Prop_Message.show textof l s.
Proof.
  intros l s H HS. assert (X : l <> RInterrupt -> normal Prop_Message.show textof l s).
  { intros NI. apply demo_normal; auto.
    - now apply demo_label_plain.
    - intros j x ->. cbn [demo_label] in H. destruct x as [id ts args ns].
      destruct id; try discriminate H. destruct args as [|a [|? ?]]; try (destruct a as [[[|] [|[|[|[|[|?]]]]]] n| | | | |]; discriminate H); try discriminate H.
      destruct a as [[[|] [|[|[|[|[|?]]]]]] n| | | | |]; try discriminate H.
      destruct ns as [|[| |] [|? ?]]; try discriminate H. bools. exists ts, n. splits; auto; lia.
    - intros r u c ->. cbn [demo_label] in H. bools. unfold times_ok. splits; auto; try lia.
      apply Forall_forall. intros b Hb. rewrite forallb_forall in H0. specialize (H0 b Hb). bools. unfold is_byte. lia. }
  split; auto. destruct l; try (specialize (X ltac:(discriminate)); unfold normal in X; tauto). split; exact I.
Qed.

Lemma demo_states : forall (ok : rlabel -> rt -> Prop) size k ls t, 0 <= size <= 1000 -> Z.of_nat k < 1000 ->
  forallb demo_label ls = true -> demo_run size k ls = Some t ->
  (forall l s, normal Prop_Message.show textof l s -> ok l s) ->
  (forall l s, In l ls -> proper l s -> printable Prop_Message.show textof l s ->
    (l <> RInterrupt -> normal Prop_Message.show textof l s) -> ok l s) -> reach ok t.
Proof.
  intros ok size k ls t H1 H2 HL E H3 H4. rewrite forallb_forall in HL. eapply demo_reach; eauto.
  - apply forallb_forall. intros l Hl. apply demo_label_plain. auto.
  - intros l s Hl Hp Hs. destruct (demo_label_ok l s (HL l Hl) Hs) as (X & Y & Z). apply H4; auto.
Qed.

Theorem C36_buffers_in_order_refuted : ~ C36_statement.
Proof.
  intro H. destruct signal_ends as (t & E & F & (x & S) & (w & W) & _).
  assert (R : reach proper t).
  { apply (demo_states _ 100 1 signal_run t); try lia; auto. intros l s N. exact (proj1 N). }
  destruct (H t R) as (done & D1 & D2). rewrite S, W in D2. cbn [map] in D2.
  destruct done as [|a [|b done]]; try discriminate D2.
  - rewrite F in D1. inversion D2. subst a. cbn [concat] in D1. rewrite app_nil_r in D1. discriminate D1.
  - apply (f_equal (@length _)) in D2. cbn in D2. rewrite app_length in D2. cbn in D2. lia.
Qed.
Print Assumptions C36_buffers_in_order_refuted.

Theorem C17_defined_before_use_refuted : ~ C17_statement.
Proof.
  intro H. destruct signal_ends as (t & E & F & _ & _ & O).
  assert (R : reach proper t).
  { apply (demo_states _ 100 1 signal_run t); try lia; auto. intros l s N. exact (proj1 N). }
  specialize (H t R). rewrite O in H. inversion H as [|? ? G _]. subst. destruct G as (ps & P1 & _ & P2).
  destruct P2 as (junk & r & u & c & ps' & ->); [rewrite F; discriminate|].
  rewrite F in P1. cbn [map concat piece_bytes] in P1. unfold checkpoint_bytes in P1. apply (f_equal (hd 0)) in P1. cbn [hd app] in P1. lia.
Qed.
Print Assumptions C17_defined_before_use_refuted.

Theorem C37_end_to_end_refuted : ~ C37_statement.
Proof.
  intro H. destruct signal_ends as (t & E & F & _ & _ & O).
  assert (R : reach (fun l t => proper l t /\ printable Prop_Message.show textof l t) t).
  { apply (demo_states _ 100 1 signal_run t); try lia; auto. intros l s (N1 & _ & _ & N2). now split. }
  destruct (H _ _ t R) as (lss & D & _). rewrite O in D. cbn [app] in D. inversion D as [|? ? ? ? D1 _]. subst. destruct D1 as [(D1 & _) | (d1 & d2 & evs & D1 & _)].
  - rewrite F in D1. discriminate D1.
  - rewrite F in D1. vm_compute in D1. discriminate D1.
Qed.
Print Assumptions C37_end_to_end_refuted.

(** ** Instances *)

(** Two threads log three messages; they are read back from the file. *)
Definition good_run : list rlabel :=
  log 0 (msg 5 1) ++ log 1 (msg 6 2) ++ log 0 (msg 7 3) ++ think 17 ++ [RIoDone 0].

Definition read_back (f : list Z) : option (list (Z * list Z)) :=
  match d_open_file new_decoder f with
  | Some (d, true) =>
    match decompressUnordered Prop_Message.show d with
    | Some (_, evs, _) => Some (map (fun s => (sh_tid s, sh_text s)) (messages (map line_of evs)))
    | None => None
    end
  | _ => None
  end.

Definition quiet (t : rt) : bool :=
  (getEncodedBytes (t_en t) =? 0) && match t_flight t with [] => true | _ => false end &&
  forallb (fun b => match unfinished (p_pc (r_p (b_ring b))) with [] => true | _ => false end &&
                    if list_eq_dec Z.eq_dec (r_got (b_ring b)) (concat (r_sent (b_ring b))) then true else false) (t_bufs t).

Lemma quiet_drained : forall t, quiet t = true -> drained t.
Proof.
  intros t H. unfold quiet in H. bools. apply Z.eqb_eq in H. unfold drained. splits; auto.
  - destruct (t_flight t); auto; discriminate.
  - rewrite forallb_forall in H0. apply Forall_forall. intros b Hb. specialize (H0 b Hb). bools.
    destruct (list_eq_dec _ _ _); [|discriminate]. split; auto. destruct (unfinished _); auto; discriminate.
Qed.

Example C17_C36_C37_instance : exists t, demo_run 200 2 good_run = Some t /\ reach (normal Prop_Message.show textof) t /\ drained t /\
  map b_msgs (t_bufs t) = [[msg 5 1; msg 7 3]; [msg 6 2]] /\
  t_file t = concat (t_subm t) /\
  t_file t = checkpoint_bytes 0 10 11 (repeat 0 8) ++ dict_bytes 1 [fsite 7] ++
             extent_bytes 0 false [WMsg 0 5 [1; 1]; WMsg 0 7 [1; 3]] ++ extent_bytes 1 false [WMsg 0 6 [1; 2]] /\
  read_back (t_file t) = Some [(0, chars "n=" ++ [1]); (0, chars "n=" ++ [3]); (1, chars "n=" ++ [2])].
Proof.
  destruct (demo_run 200 2 good_run) as [t|] eqn:E.
  - exists t. split; [reflexivity|].
    assert (X : match demo_run 200 2 good_run with
      | Some t => (if list_eq_dec Z.eq_dec (t_file t) (concat (t_subm t)) then true else false) = true /\ quiet t = true /\
          map b_msgs (t_bufs t) = [[msg 5 1; msg 7 3]; [msg 6 2]] /\
          t_file t = checkpoint_bytes 0 10 11 (repeat 0 8) ++ dict_bytes 1 [fsite 7] ++
             extent_bytes 0 false [WMsg 0 5 [1; 1]; WMsg 0 7 [1; 3]] ++ extent_bytes 1 false [WMsg 0 6 [1; 2]]
      | None => False end) by (vm_compute; splits; reflexivity).
    rewrite E in X. destruct X as (X1 & X2 & X3 & X4). destruct (list_eq_dec _ _ _) as [X5|]; [|discriminate X1].
    split; [|split; [|split; [|split; [|split]]]]; auto.
    + apply (demo_states _ 200 2 good_run t); try lia; auto.
      intros l s Hl _ _ N. apply N. intros ->. vm_compute in Hl. repeat (destruct Hl as [Hl | Hl]; [discriminate Hl|]). destruct Hl.
    + now apply quiet_drained.
    + rewrite X4. vm_compute. reflexivity.
  - exfalso. assert (X : match demo_run 200 2 good_run with Some _ => true | None => false end = true) by (vm_compute; reflexivity).
    rewrite E in X. discriminate X.
Qed.
