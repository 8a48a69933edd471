(** C17, C36, C37: the running system's files. *)
From Verif Require Import Base BaseProofs FrontFmt Prop_FrontFmt Prop_MicroCode Args Printf ArgsProofs Prop_Args DecodeProofs Encoder Wire
  EncoderProofs Prop_Encoder Decoder FileSpec DecoderProofs Prop_Decoder Ring RingProofs Prop_Ring Runtime RtRing RtBuf RtInv RtSafe RtFile.
From Coq Require Import Permutation.

Ltac Zify.zify_post_hook ::= Z.div_mod_to_equations.

(** ** Specification *)

(** The states reached, each step being [ok]; the output buffers may have any size. *)
Inductive reach (ok : rlabel -> rt -> Prop) : rt -> Prop :=
| reach_init : forall m size b1 b2 r u c t, 0 <= size < 2 ^ 30 -> mem_bytes m -> times_ok r u c ->
    b1 + size <= b2 \/ b2 + size <= b1 -> rt_init m size b1 b2 r u c = Some t -> reach ok t
| reach_step : forall l t t', reach ok t -> ok l t -> rt_step l t = Some t' -> reach ok t'.

(** What the program does: fewer than 2^32 statements and threads, statements and
    messages as the front end produces them.  Every interleaving, every time at which
    a write completes, every signal. *)
Definition proper (l : rlabel) (t : rt) : Prop :=
  match l with
  | RRegister s => site_ok s /\ zlen (t_sites t) + 1 < 2 ^ 32
  | RAlloc => t_nextid t + 1 < 2 ^ 32
  | RLog j x => forall s, nth_error (t_sites t) (Z.to_nat (sm_id x)) = Some s -> staged_ok s x
  | RRestart r u c => times_ok r u c
  | _ => True
  end.

(** No signal arrives while the compression thread is in aio_suspend. *)
Definition uninterrupted (l : rlabel) : Prop := l <> RInterrupt.

(** Messages smaller than half a staging buffer. *)
Definition small_messages (l : rlabel) (t : rt) : Prop :=
  match l with
  | RLog j x => forall s, nth_error (t_sites t) (Z.to_nat (sm_id x)) = Some s -> zlen (staged_bytes s x) < STAGING_BUFFER_SIZE / 2
  | _ => True
  end.

(** printf produces [text x] for message [x]. *)
Definition printable (conv : rconv -> list Z) (text : smsg -> list Z) (l : rlabel) (t : rt) : Prop :=
  match l with RLog j x => said conv (t_sites t) x (text x) | _ => True end.

(** Parts of a file. *)
Inductive piece :=
| PCheckpoint (junk rdtsc unixTime : Z) (cps : list Z)
| PDict (total : Z) (ss : list site)
| PExtent (tid : Z) (newPass : bool) (ws : list wmsg).

Definition piece_bytes (p : piece) : list Z :=
  match p with
  | PCheckpoint junk r u c => checkpoint_bytes junk r u c
  | PDict total ss => dict_bytes total ss
  | PExtent tid np ws => extent_bytes tid np ws
  end.

(** Every id used is that of a statement defined before it since the last checkpoint; [k]
    statements are known. *)
Fixpoint defined_before (sites : list site) (k : nat) (ps : list piece) : Prop :=
  match ps with
  | [] => True
  | PCheckpoint _ _ _ _ :: r => defined_before sites 0 r
  | PDict total ss :: r =>
      (forall i s, nth_error ss i = Some s -> nth_error sites (k + i) = Some s) /\ total = Z.of_nat (k + length ss) /\
      defined_before sites (k + length ss) r
  | PExtent _ _ ws :: r => Forall (fun w => 0 <= w_id w < Z.of_nat k) ws /\ defined_before sites k r
  end.

(** A file as the decoder wants it. *)
Definition good_file (sites : list site) (f : list Z) : Prop :=
  exists ps, f = concat (map piece_bytes ps) /\ defined_before sites 0 ps /\
    (f <> [] -> exists junk r u c ps', ps = PCheckpoint junk r u c :: ps').

(** ** C17 *)

Lemma reach_inv : forall (small : Prop) (ok : rlabel -> rt -> Prop) t, (forall l t, ok l t -> legal small l t) -> reach ok t -> inv small t.
Proof.
  intros small ok t H R. induction R.
  - eapply init_inv; eauto.
  - eapply step_inv_rt; eauto.
Qed.

Lemma proper_legal : forall l t, proper l t -> uninterrupted l -> legal False l t.
Proof.
  intros l t H U. destruct l; cbn [proper legal] in *; auto.
  intros s Hs. split; auto. tauto.
Qed.

Lemma proper_small_legal : forall l t, proper l t -> uninterrupted l -> small_messages l t -> legal True l t.
Proof.
  intros l t H U HS. destruct l; cbn [proper legal small_messages] in *; auto.
Qed.

Lemma dict_prefix : forall A (ss sites : list A) k, ss = firstn (length ss) (skipn k sites) ->
  forall i s, nth_error ss i = Some s -> nth_error sites (k + i) = Some s.
Proof.
  intros A ss sites k E i s H. assert (L : (i < length ss)%nat) by (apply nth_error_Some; congruence).
  rewrite E, nth_firstn in H by exact L. rewrite <- H. clear. revert sites.
  induction k as [|k IH]; intros [|x sites]; cbn [skipn Nat.add nth_error]; auto.
  now destruct i.
Qed.

Lemma wires_pieces : forall small sites gs f k, wires small sites gs f -> gok sites k gs ->
  exists ps, f = concat (map piece_bytes ps) /\ defined_before sites k ps /\
    (starts gs -> exists junk r u c ps', ps = PCheckpoint junk r u c :: ps').
Proof.
  intros small sites gs f k (bss & W & ->). revert k. induction W as [|g b gs bss W _ IH]; intros k G.
  - exists []. splits; auto; try exact I. intros (? & ? & ? & ? & X). discriminate X.
  - destruct g as [r u c|total ss|tid np xs]; cbn [wire gok] in *.
    + destruct (IH _ G) as (ps & P1 & P2 & _). destruct W as (_ & junk & _ & ->).
      exists (PCheckpoint junk r u c :: ps). cbn [map concat piece_bytes defined_before]. splits; auto; try congruence. eauto 8.
    + destruct G as (G1 & G2 & G3). destruct (IH _ G3) as (ps & P1 & P2 & _). destruct W as (-> & _).
      exists (PDict total ss :: ps). cbn [map concat piece_bytes defined_before]. splits; auto; try congruence.
      * now apply dict_prefix.
      * intros (? & ? & ? & ? & X). discriminate X.
    + destruct G as (G1 & G2). destruct (IH _ G2) as (ps & P1 & P2 & _). destruct W as (_ & (sbs & W2) & ws & W3 & -> & _).
      exists (PExtent tid np ws :: ps). cbn [map concat piece_bytes defined_before]. splits; auto; try congruence.
      * apply staged_ranges in W2. clear - W2 W3 G1. revert ws W3. induction xs as [|x xs IH]; intros [|w ws] W; try contradiction W; constructor.
        -- destruct W as ((s & _ & (E & _)) & _). inversion W2; inversion G1; subst. rewrite E. lia.
        -- destruct W as (_ & W). inversion W2; inversion G1; subst. now apply IH.
      * intros (? & ? & ? & ? & X). discriminate X.
Qed.

Theorem C17_defined_before_use_partial : forall t, reach (fun l t => proper l t /\ uninterrupted l) t ->
  Forall (good_file (t_sites t)) (t_olds t ++ [t_file t]) /\
  good_file (t_sites t) (t_file t ++ concat (map (fun w => load (e_mem (t_en t)) (fst w) (Z.to_nat (snd w))) (t_flight t)) ++
    load (e_mem (t_en t)) (e_base (t_en t)) (Z.to_nat (getEncodedBytes (t_en t)))).
Proof.
  intros t R. assert (H : inv False t) by (eapply reach_inv; [|exact R]; intros l0 t0 (A & B); now apply proper_legal). inv_split H.
  destruct HKn as (K1 & K2 & _). unfold sect in *.
  assert (FL : wires False (t_sites t) (t_gflight t) (concat (map (fun w => load (e_mem (t_en t)) (fst w) (Z.to_nat (snd w))) (t_flight t)))).
  { destruct HFl as [(-> & ->) | (_ & n & -> & _ & F)]; [apply wires_nil|]. cbn [map concat fst snd]. now rewrite app_nil_r. }
  split.
  - apply Forall_app. split.
    + unfold inv_olds in HOl. clear - HOl. induction HOl as [|g f gs fs (A & B & C) _ IH]; constructor; auto.
      destruct (wires_pieces _ _ _ _ _ A B) as (ps & P1 & P2 & P3). exists ps. splits; auto.
    + constructor; [|constructor]. rewrite gok_app in K1. destruct K1 as (K1 & _).
      destruct (wires_pieces _ _ _ _ _ HFi K1) as (ps & P1 & P2 & P3). exists ps. splits; auto. intros NE. apply P3.
      destruct K2 as (r & u & c & gs & E). destruct (t_gfile t) as [|g gf]; [|].
      * exfalso. apply NE. destruct HFi as (bss & W & ->). now inversion W.
      * cbn [app] in E. exists r, u, c, gf. congruence.
  - assert (W := wires_app _ _ _ _ _ _ HFi (wires_app _ _ _ _ _ _ FL HGl)).
    destruct (wires_pieces _ _ _ _ _ W K1) as (ps & P1 & P2 & P3). exists ps. splits; auto.
Qed.

(** ** C36 *)

(** The current file is the buffers given to aio_write whose writes have completed, in order;
    the others still are in memory as they were given. *)
Theorem C36_buffers_in_order_partial : forall t, reach (fun l t => proper l t /\ uninterrupted l) t ->
  exists done, t_file t = concat done /\
    t_subm t = done ++ map (fun w => load (e_mem (t_en t)) (fst w) (Z.to_nat (snd w))) (t_flight t).
Proof.
  intros t R. assert (H : inv False t) by (eapply reach_inv; [|exact R]; intros l0 t0 (A & B); now apply proper_legal). now inv_split H.
Qed.

(** ** C37 *)

(** Nothing logged is left anywhere but in files. *)
Definition drained (t : rt) : Prop :=
  getEncodedBytes (t_en t) = 0 /\ t_flight t = [] /\
  Forall (fun b => unfinished (p_pc (r_p (b_ring b))) = [] /\ r_got (b_ring b) = concat (r_sent (b_ring b))) (t_bufs t).

Definition normal conv text (l : rlabel) (t : rt) : Prop :=
  proper l t /\ uninterrupted l /\ small_messages l t /\ printable conv text l t.

Lemma reach_said : forall conv text (ok : rlabel -> rt -> Prop) t, (forall l t, ok l t -> printable conv text l t) -> reach ok t -> inv_said conv text t.
Proof.
  intros conv text ok t H R. induction R as [m size b1 b2 r u c t H0 H1 H2 H3 E|l t t' R IH HO E].
  - unfold rt_init in E. destruct (encoder _ _ _ _ _ _ _); [|discriminate]. apply some_inj in E. subst t. constructor.
  - eapply step_said; eauto. intros j x ->. exact (H _ _ HO).
Qed.

Lemma emitted_concat : forall id gss, emitted id (concat gss) = concat (map (emitted id) gss).
Proof. intros id. induction gss as [|g gss IH]; [reflexivity|]. cbn [concat map]. now rewrite emitted_app, IH. Qed.

Lemma Forall2_prefix : forall A B (R : A -> B -> Prop) l l1 l2 m, Forall2 R l1 m -> l = l1 ++ l2 -> exists k, Forall2 R (firstn k l) m.
Proof. intros A B R l l1 l2 m H ->. exists (length l1). rewrite firstn_app, Nat.sub_diag, firstn_all. cbn [firstn]. now rewrite app_nil_r. Qed.

Lemma file_lines_apart : forall conv text t, reach (normal conv text) t ->
  exists lss ls, Forall2 (decodes conv) (t_olds t) lss /\ decodes conv (t_file t) ls /\
    (forall id, Forall2 (shows (t_sites t) text id) (emitted id (concat (t_golds t))) (concat (map (tid_lines id) lss))) /\
    forall id, Forall2 (shows (t_sites t) text id) (emitted id (t_gfile t)) (tid_lines id ls).
Proof.
  intros conv text t R.
  assert (H : inv True t) by (eapply reach_inv; [|exact R]; intros l0 t0 (A & B & C & _); now apply proper_small_legal).
  assert (HS : inv_said conv text t) by (eapply reach_said; [|exact R]; intros l0 t0 (_ & _ & _ & D); exact D).
  pose proof H as H'. inv_split H'.
  assert (SA : forall tid np xs, In (GExtent tid np xs) (everything t) -> Forall (fun x => said conv (t_sites t) x (text x)) xs \/ tid < 0).
  { intros tid np xs HI. destruct (Z.lt_ge_cases tid 0) as [|HT]; [now right|left]. destruct xs as [|x0 xs0] eqn:EX; [constructor|]. rewrite <- EX in *.
    destruct (emitted_buf True t tid H HT) as (b & B1 & B2 & k & B3).
    { intro X. assert (Y := emitted_in tid np xs _ x0 HI ltac:(rewrite EX; now left)). rewrite X in Y. destruct Y. }
    apply Forall_forall. intros x Hx. assert (Y := emitted_in tid np xs _ x HI Hx). rewrite B3 in Y.
    unfold inv_said in HS. eapply Forall_forall in HS; eauto. cbv beta in HS. eapply Forall_forall in HS; [exact HS|].
    rewrite <- (firstn_skipn k (b_msgs b)). apply in_or_app. now left. }
  destruct HKn as (K1 & K2 & _). unfold everything, sect in *. destruct HSi as (HSi & _).
  (* one file *)
  assert (ONE : forall gs f, wires True (t_sites t) gs f -> gok (t_sites t) 0 gs -> (gs = [] \/ starts gs) ->
    (forall g, In g gs -> In g (concat (t_golds t) ++ t_gfile t ++ t_gflight t ++ t_glog t)) ->
    exists ls, decodes conv f ls /\ forall id, Forall2 (shows (t_sites t) text id) (emitted id gs) (tid_lines id ls)).
  { intros gs f W G S X. apply (wires_decodes True conv text (t_sites t) gs f I HSi W G S). intros tid np xs HI. destruct (SA tid np xs (X _ HI)) as [Y | Y]; auto.
    destruct W as (bss & W & _). clear - W HI Y. induction W as [|g b gs bss W _ IH]; [destruct HI|]. destruct HI as [-> | HI]; [|auto].
    cbn [wire] in W. lia. }
  assert (OL : exists lss, Forall2 (decodes conv) (t_olds t) lss /\
    forall id, Forall2 (shows (t_sites t) text id) (emitted id (concat (t_golds t))) (concat (map (tid_lines id) lss))).
  { unfold inv_olds in HOl. assert (XX : forall g, In g (concat (t_golds t)) -> In g (concat (t_golds t) ++ t_gfile t ++ t_gflight t ++ t_glog t)).
    { intros. apply in_or_app. now left. }
    set (all := concat (t_golds t) ++ t_gfile t ++ t_gflight t ++ t_glog t) in *. clearbody all. clear - HOl ONE XX.
    induction HOl as [|g f gs fs (A & B & C) _ IH]; [exists []; split; constructor|].
    destruct IH as (lss & L1 & L2). { intros x Hx. apply XX. cbn [concat]. apply in_or_app. now right. }
    destruct (ONE g f A B (or_intror C)) as (ls & M1 & M2). { intros x Hx. apply XX. cbn [concat]. apply in_or_app. now left. }
    exists (ls :: lss). split; [constructor; auto|]. intros id. cbn [concat map]. rewrite emitted_app. apply Forall2_app; auto. }
  destruct OL as (lss & L1 & L2).
  destruct (ONE (t_gfile t) (t_file t)) as (ls & M1 & M2); auto.
  { rewrite gok_app in K1. tauto. }
  { destruct K2 as (r & u & c & gs & E). destruct (t_gfile t) as [|g gf]; auto. right. cbn [app] in E. exists r, u, c, gf. congruence. }
  { intros g Hg. apply in_or_app. right. apply in_or_app. now left. }
  exists lss, ls. splits; auto.
Qed.

Lemma file_lines : forall conv text t, reach (normal conv text) t ->
  exists lss, Forall2 (decodes conv) (t_olds t ++ [t_file t]) lss /\
    forall id, Forall2 (shows (t_sites t) text id) (emitted id (concat (t_golds t) ++ t_gfile t)) (concat (map (tid_lines id) lss)).
Proof.
  intros conv text t R. destruct (file_lines_apart conv text t R) as (lss & ls & L1 & M1 & L2 & M2).
  exists (lss ++ [ls]). split; [apply Forall2_app; auto|].
  intros id. rewrite emitted_app, map_app, concat_app. apply Forall2_app; auto. cbn [map concat]. now rewrite app_nil_r.
Qed.

Lemma normal_inv : forall conv text t, reach (normal conv text) t -> inv True t.
Proof. intros conv text t R. eapply reach_inv; [|exact R]. intros l0 t0 (A & B & C & _). now apply proper_small_legal. Qed.

(** What has been written of a thread's messages is a prefix of them. *)
Lemma written_prefix : forall small t b, inv small t -> In b (t_bufs t ++ t_gone t) ->
  exists n, emitted (b_id b) (concat (t_golds t) ++ t_gfile t ++ t_gflight t ++ t_glog t) = firstn n (b_msgs b) /\
    firstn (length (emitted (b_id b) (concat (t_golds t) ++ t_gfile t))) (b_msgs b) = emitted (b_id b) (concat (t_golds t) ++ t_gfile t).
Proof.
  intros small t b H Hb. inv_split H. destruct HAc as (A1 & A2 & A3). unfold everything, sect in *.
  assert (X : exists n, emitted (b_id b) (concat (t_golds t) ++ t_gfile t ++ t_gflight t ++ t_glog t) = firstn n (b_msgs b)).
  { apply in_app_or in Hb. destruct Hb as [Hb | Hb].
    - exists (b_taken b). eapply Forall_forall in A1; eauto.
    - exists (length (b_msgs b)). eapply Forall_forall in A2; eauto. destruct A2 as (A2 & _). rewrite firstn_all. auto. }
  destruct X as (n & X1). exists n. split; [exact X1|].
  rewrite !app_assoc, emitted_app in X1. rewrite emitted_app in X1. rewrite <- app_assoc in X1.
  rewrite <- (firstn_skipn n (b_msgs b)), <- X1, <- app_assoc. rewrite firstn_app, Nat.sub_diag, firstn_all. cbn [firstn]. now rewrite app_nil_r.
Qed.

(** Decoding the files written so far gives, for each thread, in order, the first messages it logged, and nothing
    else; if all is drained, all its messages. *)
Theorem C37_end_to_end_partial : forall conv text t, reach (normal conv text) t ->
  exists lss, Forall2 (decodes conv) (t_olds t ++ [t_file t]) lss /\
    (forall b, In b (t_bufs t ++ t_gone t) -> exists k,
      Forall2 (shows (t_sites t) text (b_id b)) (firstn k (b_msgs b)) (concat (map (tid_lines (b_id b)) lss)) /\
      (drained t -> (length (b_msgs b) <= k)%nat)) /\
    (forall id, 0 <= id -> ~ In id (map b_id (t_bufs t ++ t_gone t)) -> concat (map (tid_lines id) lss) = []).
Proof.
  intros conv text t R. pose proof (normal_inv _ _ _ R) as H. destruct (file_lines conv text t R) as (lss & DEC & ALL).
  exists lss. split; [exact DEC|]. pose proof H as H'. inv_split H'. unfold everything, sect in *.
  destruct HAc as (A1 & A2 & A3).
  assert (DR : drained t -> t_gflight t = [] /\ t_glog t = []).
  { intros (D1 & D2 & _). split; [apply (nil_flight True t H); auto|]. eapply wires_empty. unfold encoded_bytes in HGl. rewrite D1 in HGl. exact HGl. }
  split.
  - intros b Hb. specialize (ALL (b_id b)).
    assert (X : exists n, emitted (b_id b) (concat (t_golds t) ++ t_gfile t ++ t_gflight t ++ t_glog t) = firstn n (b_msgs b) /\
      (drained t -> (length (b_msgs b) <= n)%nat)).
    { apply in_app_or in Hb. destruct Hb as [Hb | Hb].
      - exists (b_taken b). eapply Forall_forall in A1; eauto. split; auto. intros (_ & _ & D3). eapply Forall_forall in D3; eauto. destruct D3 as (D3 & D4).
        destruct HBu as (B & _). eapply Forall_forall in B; eauto. destruct B as (_ & _ & B1 & B2 & B3 & _).
        assert (NE := staged_nonempty _ _ _ B1). unfold all_sent in *. rewrite D3, app_nil_r in *.
        assert (LE : length (b_msgs b) = length (r_sent (b_ring b))) by (clear - B1; induction B1; cbn; auto). rewrite LE.
        apply (concat_mono (r_sent (b_ring b))); auto. rewrite firstn_all, <- D4, B2. lia.
      - exists (length (b_msgs b)). eapply Forall_forall in A2; eauto. destruct A2 as (A2 & _). rewrite firstn_all. auto. }
    destruct X as (n & X1 & X2).
    rewrite !app_assoc, emitted_app in X1. rewrite emitted_app in X1. rewrite <- app_assoc in X1.
    exists (length (emitted (b_id b) (concat (t_golds t) ++ t_gfile t))).
    assert (EF : firstn (length (emitted (b_id b) (concat (t_golds t) ++ t_gfile t))) (b_msgs b) = emitted (b_id b) (concat (t_golds t) ++ t_gfile t)).
    { rewrite <- (firstn_skipn n (b_msgs b)), <- X1, <- app_assoc. rewrite firstn_app, Nat.sub_diag, firstn_all. cbn [firstn]. now rewrite app_nil_r. }
    rewrite EF. split; auto. intros D. destruct (DR D) as (D1 & D2). specialize (X2 D). rewrite D1, D2 in X1. cbn in X1. rewrite app_nil_r in X1. rewrite X1.
    rewrite firstn_length. lia.
  - intros id H0 HN. specialize (ALL id).
    assert (X : emitted id (concat (t_golds t) ++ t_gfile t ++ t_gflight t ++ t_glog t) = []).
    { destruct (emitted id (concat (t_golds t) ++ t_gfile t ++ t_gflight t ++ t_glog t)) eqn:EE; auto. exfalso. apply HN.
      destruct (emitted_buf True t id H H0) as (b & B1 & B2 & _).
      - unfold everything, sect. rewrite EE. discriminate.
      - rewrite <- B2. now apply in_map. }
    rewrite !app_assoc, emitted_app in X. rewrite emitted_app in X. apply app_eq_nil in X. destruct X as (X & _).
    apply app_eq_nil in X. destruct X as (X & _). rewrite X in ALL. now inversion ALL.
Qed.

Print Assumptions C17_defined_before_use_partial.
Print Assumptions C36_buffers_in_order_partial.
Print Assumptions C37_end_to_end_partial.
