(** C74: ordered decompression of what an execution logged is in the order of the time stamps. *)
From Verif Require Import Base BaseProofs Chars FrontFmt Args Printf ArgsProofs DecodeProofs Encoder Wire EncoderProofs Prop_Encoder Decoder FileSpec
  DecoderProofs Prop_Decoder Ordered OrderedProofs OrderSpec OrderTheory Prop_Ordered OrderSorted Ring RingProofs Runtime RtRing RtBuf RtInv RtSafe RtFile Prop_Runtime
  RtRuns Prop_RuntimeRuns Prop_Sync Prop_Crash.
From Coq Require Import Permutation Sorted.

(** ** Specification *)

(** The messages logged so far. *)
Definition logged (t : rt) : list smsg := concat (map b_msgs (t_bufs t ++ t_gone t)).

(** The clock all threads read does not go back. *)
Definition clocked (l : rlabel) (t : rt) : Prop :=
  match l with RLog _ x => forall y, In y (logged t) -> sm_ts y <= sm_ts x | _ => True end.

(** A log statement is executed, and its message visible, before anything else happens (but that threads start). *)
Definition instant (l : rlabel) (t : rt) : Prop :=
  match l with
  | RProducer _ | RCommitP _ | RRegister _ | RAlloc | RPush _ => True
  | _ => forall b, In b (t_bufs t) -> p_pc (r_p (b_ring b)) = PIdle /\ p_sb (r_p (b_ring b)) = []
  end.

(** Ordered decompression prints the lines of the file, in the order of their time stamps. *)
Definition in_time_order (conv : rconv -> list Z) (f : list Z) : Prop :=
  forall d pick, heap_front pick -> exists d1 d2 evs ls,
    d_open_file d f = Some (d1, true) /\ decompressTo conv pick d1 = Some (d2, evs, zlen (messages ls)) /\ decodes conv f ls /\
    Permutation (map line_of evs) ls /\ chronological (map line_of evs).

Definition C74_full : Prop := forall conv text t,
  reach (fun l t => normal conv text l t /\ clocked l t /\ instant l t) t ->
  forall f, In f (t_olds t ++ [t_file t]) -> f <> [] -> in_time_order conv f.

(** A message is logged only when the thread has taken those of all other threads. *)
Definition apart (l : rlabel) (t : rt) : Prop :=
  match l with
  | RLog j _ => forall i b, i <> j -> nth_error (t_bufs t) i = Some b -> b_taken b = length (b_msgs b)
  | _ => True
  end.

(** ** What has been encoded is in order *)
Definition gmsgs (gs : list gitem) : list smsg := concat (map (fun g => match g with GExtent _ _ xs => xs | _ => [] end) gs).

Lemma gmsgs_app : forall a b, gmsgs (a ++ b) = gmsgs a ++ gmsgs b.
Proof. intros. unfold gmsgs. now rewrite map_app, concat_app. Qed.

Definition by_time (l : list smsg) : Prop := StronglySorted Z.le (map sm_ts l).

Lemma zsorted_app : forall l r, StronglySorted Z.le (l ++ r) <->
  StronglySorted Z.le l /\ StronglySorted Z.le r /\ forall x y, In x l -> In y r -> x <= y.
Proof.
  induction l as [|a l IH]; intros r; cbn [app].
  - split; [intros H; splits; auto; [constructor|intros x y []]|intros (_ & H & _); exact H].
  - split.
    + intros H. inversion H as [|? ? H1 H2]; subst. apply IH in H1. destruct H1 as (A & B & C). apply Forall_app in H2. destruct H2 as (D & F).
      splits; auto; [now constructor|]. intros x y [<-|Hx] Hy; [rewrite Forall_forall in F; auto|auto].
    + intros (A & B & C). inversion A as [|? ? A1 A2]; subst. constructor.
      * apply IH. splits; auto. intros x y Hx. apply C. now right.
      * apply Forall_app. split; auto. apply Forall_forall. intros y Hy. apply C; auto. now left.
Qed.

Lemma by_time_app : forall l r, by_time (l ++ r) <-> by_time l /\ by_time r /\ forall x y, In x l -> In y r -> sm_ts x <= sm_ts y.
Proof.
  intros l r. unfold by_time. rewrite map_app, zsorted_app. split; intros (A & B & C); splits; auto.
  - intros x y Hx Hy. apply C; now apply in_map.
  - intros x y Hx Hy. apply in_map_iff in Hx, Hy. destruct Hx as (a & <- & Ha), Hy as (b & <- & Hb). auto.
Qed.

(** What the steps add. *)
Lemma adds_everything : forall t t', adds t t' -> exists x, everything t' = everything t ++ x.
Proof. intros t t' (A & x & B & _). exists x. unfold everything. now rewrite A, B, app_assoc. Qed.

Lemma step_everything : forall l t t', rt_step l t = Some t' -> l <> RInterrupt -> exists x, everything t' = everything t ++ x.
Proof.
  intros l t t' E NI. destruct l; cbn [rt_step] in E; try (eapply adds_everything, thread_adds; eassumption); try congruence.
  all: repeat match type of E with
    | context [match ?x with _ => _ end] => destruct x; try discriminate E
    end; try (eapply adds_everything; exact (on_ring_adds _ _ _ _ E)).
  all: apply some_inj in E; subst t'.
  all: try (apply adds_everything; first [ad | apply notify_adds; ad]).
  - exists []. unfold everything, sect. rt_cbn. rewrite !app_nil_l, !app_nil_r. now rewrite <- app_assoc.
  - exists [GCheckpoint rdtsc unixTime cps]. unfold everything, sect. rt_cbn. rewrite concat_app. cbn [concat]. rewrite !app_nil_r, <- !app_assoc. reflexivity.
Qed.

Lemma tid_nonneg : forall small t tid np xs, inv small t -> In (GExtent tid np xs) (everything t) -> 0 <= tid.
Proof.
  intros small t tid np xs H HI. inv_split H.
  assert (W : forall gs f, wires small (t_sites t) gs f -> In (GExtent tid np xs) gs -> 0 <= tid).
  { intros gs f (bss & W & _) X. clear - W X. induction W as [|g b gs bss W _ IH]; [destruct X|]. destruct X as [-> | X]; [|auto]. cbn [wire] in W. lia. }
  unfold everything, sect in HI. rewrite !in_app_iff in HI. destruct HI as [HI|[HI|[HI|HI]]].
  - unfold inv_olds in HOl. clear - HOl HI W. induction HOl as [|g f gs fs (A & _) _ IH]; [destruct HI|]. cbn [concat] in HI. apply in_app_or in HI.
    destruct HI as [HI|HI]; [exact (W _ _ A HI)|exact (IH HI)].
  - exact (W _ _ HFi HI).
  - destruct HFl as [(_ & F)|(_ & n & _ & _ & F)]; [rewrite F in HI; destruct HI|exact (W _ _ F HI)].
  - exact (W _ _ HGl HI).
Qed.

Lemma gmsgs_in : forall gs x, In x (gmsgs gs) -> exists tid np xs, In (GExtent tid np xs) gs /\ In x xs.
Proof.
  intros gs x H. unfold gmsgs in H. apply in_concat in H. destruct H as (l & Hl & Hx). apply in_map_iff in Hl. destruct Hl as (g & E & Hg).
  destruct g; subst l; try destruct Hx. eauto.
Qed.

Lemma in_logged : forall t b x, In b (t_bufs t ++ t_gone t) -> In x (b_msgs b) -> In x (logged t).
Proof. intros t b x Hb Hx. unfold logged. apply in_concat. exists (b_msgs b). split; auto. now apply in_map. Qed.

Lemma encoded_logged : forall small t x, inv small t -> In x (gmsgs (everything t)) -> In x (logged t).
Proof.
  intros small t x H Hx. apply gmsgs_in in Hx. destruct Hx as (tid & np & xs & HI & Hx).
  pose proof (emitted_in _ _ _ _ _ HI Hx) as Y.
  destruct (emitted_buf small t tid H (tid_nonneg _ _ _ _ _ H HI)) as (b & B1 & B2 & n & B3); [intro Z; rewrite Z in Y; destruct Y|].
  rewrite B3 in Y. apply (in_logged t b); auto. rewrite <- (firstn_skipn n (b_msgs b)). apply in_or_app. now left.
Qed.

Lemma buf_emitted : forall small t b, inv small t -> In b (t_bufs t ++ t_gone t) -> emitted (b_id b) (everything t) = firstn (b_taken b) (b_msgs b).
Proof.
  intros small t b H Hb. inv_split H. destruct HAc as (A & B & _). apply in_app_or in Hb. destruct Hb as [Hb|Hb].
  - eapply Forall_forall in A; eauto.
  - eapply Forall_forall in B; eauto. destruct B as (B1 & B2). now rewrite B2, firstn_all.
Qed.

(** At most one thread has messages that are not encoded. *)
Definition in_line (t : rt) : Prop :=
  by_time (gmsgs (everything t)) /\
  exists id0, forall b, In b (t_bufs t ++ t_gone t) ->
    exists p, b_msgs b = emitted (b_id b) (everything t) ++ p /\ (b_id b = id0 \/ p = []) /\ by_time (gmsgs (everything t) ++ p).

(** The messages of one thread only. *)
Lemma gmsgs_one : forall id0 gs, (forall tid np xs, In (GExtent tid np xs) gs -> tid = id0 \/ xs = []) -> gmsgs gs = emitted id0 gs.
Proof.
  intros id0. induction gs as [|g gs IH]; intros H; [reflexivity|]. unfold gmsgs, emitted in *. cbn [map concat].
  rewrite IH by (intros; eapply H; right; eauto). f_equal. destruct g as [| |tid np xs]; auto. cbn [emits].
  destruct (H tid np xs (or_introl eq_refl)) as [-> | ->]; [now rewrite Z.eqb_refl|destruct (tid =? id0); reflexivity].
Qed.

Lemma step_line : forall small l t t', inv small t -> inv small t' -> rt_step l t = Some t' -> l <> RInterrupt -> clocked l t -> apart l t ->
  in_line t -> in_line t'.
Proof.
  intros small l t t' H H' E NI HC HA (S & id0 & L).
  assert (RL : (exists j x, l = RLog j x) \/ forall j x, l <> RLog j x) by (destruct l; eauto; right; discriminate).
  destruct RL as [(j & x & ->)|NL].
  - cbn [rt_step] in E. destruct (nth_error (t_sites t) _) as [s|]; [|discriminate]. destruct (nth_error (t_bufs t) j) as [b|] eqn:EB; [|discriminate].
    destruct (ring_step _ _ _) as [r|]; [|discriminate]. apply some_inj in E.
    assert (EE : everything t' = everything t) by (subst t'; reflexivity). unfold in_line. rewrite EE. split; [exact S|]. exists (b_id b).
    cbn [clocked apart] in HC, HA. intros b' Hb'. subst t'. rt_cbn_in Hb'. apply in_app_or in Hb'. destruct Hb' as [Hb'|Hb'].
    + apply In_nth_error in Hb'. destruct Hb' as (i & Hi). rewrite update_nth in Hi.
      assert (Ib : In b (t_bufs t ++ t_gone t)) by (apply in_or_app; left; eapply nth_error_In; eauto).
      destruct (Nat.eq_dec i j) as [->|NE].
      * rewrite EB in Hi. rewrite ?Nat.eqb_refl in Hi.
        assert (b' = Buf (b_id b) r (b_msgs b ++ [x]) (b_taken b)) as -> by (destruct (j =? j)%nat eqn:JJ; [congruence|apply Nat.eqb_neq in JJ; lia]).
        cbn [b_id b_msgs]. destruct (L b Ib) as (p & P1 & P2 & P3). exists (p ++ [x]). splits; auto; [now rewrite P1, <- app_assoc|].
        rewrite app_assoc. apply by_time_app. splits; auto; [repeat constructor|]. intros y z Hy [<-|[]]. apply HC.
        apply in_app_or in Hy. destruct Hy as [Hy|Hy]; [eapply encoded_logged; eauto|]. apply (in_logged t b); auto. rewrite P1. apply in_or_app. now right.
      * assert (Hn : nth_error (t_bufs t) i = Some b').
        { destruct (i =? j)%nat eqn:IJ; [apply Nat.eqb_eq in IJ; lia|exact Hi]. }
        assert (Hb : In b' (t_bufs t ++ t_gone t)) by (apply in_or_app; left; eapply nth_error_In; eauto).
        destruct (L b' Hb) as (p & P1 & P2 & P3). exists []. rewrite !app_nil_r. splits; auto.
        rewrite (buf_emitted small t b' H Hb), (HA i b' NE Hn), firstn_all. reflexivity.
    + assert (Hb : In b' (t_bufs t ++ t_gone t)) by (apply in_or_app; now right).
      exists []. rewrite !app_nil_r. splits; auto. inv_split H. destruct HAc as (_ & B & _). eapply Forall_forall in B; eauto. destruct B as (B & _). now rewrite B.
  - destruct (step_everything l t t' E NI) as (x & EX). destruct (step_bufs _ _ _ E) as (BS & _).
    assert (BB : forall b', In b' (t_bufs t' ++ t_gone t') -> b_msgs b' = [] \/
      exists p', b_msgs b' = emitted (b_id b') (everything t') ++ p' /\ (b_id b' = id0 \/ (emitted (b_id b') x = [] /\ p' = [])) /\
        by_time (gmsgs (everything t) ++ emitted (b_id b') x ++ p')).
    { intros b' Hb'. destruct (BS b' Hb') as [->|(b & Hb & ID & [EM|(j & y & -> & _)])]; [now left|right|exfalso; now apply (NL j y)].
      destruct (L b Hb) as (p & P1 & P2 & P3). pose proof (buf_emitted small t' b' H' Hb') as M'.
      exists (skipn (b_taken b') (b_msgs b')). rewrite M', firstn_skipn. split; auto.
      assert (PE : p = emitted (b_id b') x ++ skipn (b_taken b') (b_msgs b')).
      { apply (app_inv_head (emitted (b_id b) (everything t))). rewrite <- P1, <- EM. rewrite <- (firstn_skipn (b_taken b') (b_msgs b')) at 1.
        rewrite <- M', EX, emitted_app, ID, <- app_assoc. reflexivity. }
      rewrite <- PE. split; auto. destruct P2 as [P2|P2]; [left; congruence|right]. rewrite P2 in PE. symmetry in PE. apply app_eq_nil in PE. exact PE. }
    assert (GX : gmsgs x = emitted id0 x).
    { apply gmsgs_one. intros tid np xs HI. assert (HI' : In (GExtent tid np xs) (everything t')) by (rewrite EX; apply in_or_app; now right).
      destruct xs as [|y ys]; [now right|left]. set (xs := y :: ys) in *. assert (Y : In y xs) by now left.
      pose proof (emitted_in _ _ _ _ _ HI' Y) as Z'.
      destruct (emitted_buf small t' tid H' (tid_nonneg _ _ _ _ _ H' HI')) as (b' & B1 & B2 & n & B3); [intro Z; rewrite Z in Z'; destruct Z'|].
      destruct (BB b' B1) as [B|(p' & _ & [B|(B & _)] & _)]; [|congruence|].
      - rewrite B3, B, firstn_nil in Z'. destruct Z'.
      - pose proof (emitted_in _ _ _ _ _ HI Y) as Z2. rewrite B2 in B. rewrite B in Z2. destruct Z2. }
    assert (GT : by_time (gmsgs (everything t'))).
    { rewrite EX, gmsgs_app, GX. destruct (emitted id0 x) as [|y ys] eqn:EY; [now rewrite app_nil_r|].
      assert (HI : exists np xs, In (GExtent id0 np xs) x /\ In y xs).
      { assert (Y : In y (gmsgs x)) by (rewrite GX; now left). clear - EY. assert (Y : In y (emitted id0 x)) by (rewrite EY; now left).
        unfold emitted in Y. apply in_concat in Y. destruct Y as (l & Hl & Hy). apply in_map_iff in Hl. destruct Hl as (g & Eg & Hg).
        destruct g as [| |tid np xs]; cbn [emits] in Eg; [subst l; destruct Hy|subst l; destruct Hy|].
        destruct (Z.eqb_spec tid id0) as [->|]; subst l; [eauto|destruct Hy]. }
      destruct HI as (np & xs & HI & Hy). assert (HI' : In (GExtent id0 np xs) (everything t')) by (rewrite EX; apply in_or_app; now right).
      pose proof (emitted_in _ _ _ _ _ HI' Hy) as Z'.
      destruct (emitted_buf small t' id0 H' (tid_nonneg _ _ _ _ _ H' HI')) as (b' & B1 & B2 & n & B3); [intro Z; rewrite Z in Z'; destruct Z'|].
      destruct (BB b' B1) as [B|(p' & _ & _ & B)]; [rewrite B3, B, firstn_nil in Z'; destruct Z'|].
      rewrite B2, EY, app_assoc in B. now apply by_time_app in B. }
    split; [exact GT|]. exists id0. intros b' Hb'. destruct (BB b' Hb') as [B|(p' & P1 & P2 & P3)].
    + exists []. rewrite !app_nil_r. splits; auto. rewrite (buf_emitted small t' b' H' Hb'), B. now rewrite firstn_nil.
    + exists p'. splits; auto.
      * destruct P2 as [P2|(_ & P2)]; auto.
      * destruct P2 as [P2|(P2 & ->)]; [|now rewrite app_nil_r]. rewrite P2 in P3. rewrite EX, gmsgs_app, GX, <- app_assoc. exact P3.
Qed.

Definition ticking conv text (l : rlabel) (t : rt) : Prop := normal conv text l t /\ clocked l t /\ apart l t.

Lemma reach_line : forall conv text t, reach (ticking conv text) t -> in_line t.
Proof.
  intros conv text t R. induction R as [m size b1 b2 r u c t H0 H1 H2 H3 E|l t t' R IH (HN & HC & HA) E].
  - unfold rt_init in E. destruct (encoder _ _ _ _ _ _ _); [|discriminate]. apply some_inj in E. subst t.
    split; [unfold everything, sect, gmsgs, by_time; rt_cbn; cbn; constructor|]. exists 0. intros b Hb. rt_cbn_in Hb. destruct Hb.
  - assert (R0 : reach (normal conv text) t) by (eapply reach_weaken; [|exact R]; intros l0 t0 (X & _); exact X).
    assert (R1 : reach (normal conv text) t') by (eapply reach_step; eauto).
    apply (step_line True l t t'); auto; try (eapply normal_inv; eassumption). intros ->. destruct HN as (_ & U & _). unfold uninterrupted in U. congruence.
Qed.

(** ** What is printed for a file *)
Lemma lines_times : forall items cp, map sh_ts (messages (FileSpec.file_lines cp items)) = map ts (flat_map item_msgs items).
Proof.
  induction items as [|it items IH]; intros cp; [reflexivity|]. cbn [flat_map]. rewrite map_app. destruct it as [?|? ?|tid np ms|? cp']; cbn [FileSpec.file_lines item_msgs map app].
  - apply IH.
  - apply IH.
  - rewrite messages_app, map_app, IH. f_equal. clear. induction ms as [|m ms IH]; [reflexivity|]. cbn [map].
    change (messages (show cp tid m :: map (show cp tid) ms)) with (messages [show cp tid m] ++ messages (map (show cp tid) ms)).
    rewrite map_app, IH. reflexivity.
  - change (messages (LNewExecution :: FileSpec.file_lines cp' items)) with (messages (FileSpec.file_lines cp' items)). apply IH.
Qed.

Lemma glines_times : forall conv text sites gs cp,
  (forall tid np xs, In (GExtent tid np xs) gs -> Forall (fun x => said conv sites x (text x)) xs) ->
  map sh_ts (messages (glines text sites cp gs)) = map sm_ts (gmsgs gs).
Proof.
  intros conv text sites. induction gs as [|g gs IH]; intros cp HA; [reflexivity|].
  assert (HA' : forall tid np xs, In (GExtent tid np xs) gs -> Forall (fun x => said conv sites x (text x)) xs) by (intros; eapply HA; right; eauto).
  unfold gmsgs in *. cbn [map concat]. rewrite map_app. destruct g as [r u c|total ss|tid np xs]; cbn [glines map app].
  - change (messages (LNewExecution :: ?l)) with (messages l). now apply IH.
  - now apply IH.
  - rewrite messages_app, map_app, IH by auto. f_equal. assert (X := HA tid np xs (or_introl eq_refl)). clear - X.
    induction X as [|x xs (s & ps & n & N & _) _ IH]; [reflexivity|]. cbn [map].
    change (gline text sites cp tid x :: map (gline text sites cp tid) xs) with ([gline text sites cp tid x] ++ map (gline text sites cp tid) xs).
    rewrite messages_app, map_app, IH. unfold gline. rewrite N. reflexivity.
Qed.

Lemma sorted_ts : forall l, StronglySorted Z.le (map ts l) -> StronglySorted le_ts l.
Proof.
  induction l as [|x l IH]; intros H; [constructor|]. cbn [map] in H. inversion H as [|? ? H1 H2]; subst. constructor; auto.
  apply Forall_forall. intros y Hy. rewrite Forall_forall in H2. exact (H2 (ts y) (in_map ts l y Hy)).
Qed.

Lemma file_in_order : forall conv text sites gs f, Forall site_ok sites -> wires True sites gs f -> gok sites 0 gs -> starts gs -> once gs ->
  (forall tid np xs, In (GExtent tid np xs) gs -> Forall (fun x => said conv sites x (text x)) xs) -> by_time (gmsgs gs) -> in_time_order conv f.
Proof.
  intros conv text sites gs f Hok HW HG HS HO HA HT d pick Hp.
  pose proof HS as (r & u & c & gs' & E).
  destruct (wires_items True conv text sites gs f 0 (Checkpoint r u c) I Hok HW HG ltac:(lia) HA) as (items & I1 & I2 & I3 & I4).
  destruct (I4 HS) as (junk & cp & its & EI). subst items gs. cbn [FileSpec.file_lines glines] in I3.
  assert (HA' : forall tid np xs, In (GExtent tid np xs) gs' -> Forall (fun x => said conv sites x (text x)) xs) by (intros; eapply HA; right; eauto).
  assert (F : file_ok conv (ICheckpoint junk cp :: its)) by exact I2.
  assert (X : FileSpec.file_lines cp its = glines text sites (Checkpoint r u c) gs') by congruence.
  assert (O1 : filter is_start gs' = []).
  { unfold once in HO. cbn [filter is_start] in HO. destruct (filter is_start gs'); [reflexivity|cbn in HO; lia]. }
  assert (ONE : one_execution its) by (apply (one_execution_lines cp); rewrite X; eapply glines_new; eauto).
  assert (ST : StronglySorted le_ts (flat_map item_msgs its)).
  { apply sorted_ts. rewrite <- (lines_times its cp), X. rewrite (glines_times conv) by auto. exact HT. }
  destruct (sorted_file conv pick d junk cp its Hp F ONE ST) as (d1 & d2 & evs & D1 & D2 & D3 & D4).
  destruct (C18_unordered_complete conv new_decoder _ F) as (e1 & e2 & evs' & G1 & G2 & G3 & G4).
  exists d1, d2, evs, (FileSpec.file_lines cp its). rewrite I1 in *. splits; auto.
  - unfold zlen in *. now rewrite <- (messages_perm _ _ D3).
  - right. exists e1, e2, evs'. splits; auto.
Qed.

(** ** The theorem *)
Theorem C74_apart_partial : forall conv text t, reach (ticking conv text) t ->
  forall f, In f (t_olds t ++ [t_file t]) -> f <> [] -> in_time_order conv f.
Proof.
  intros conv text t RT f Hf Hn. destruct (reach_line _ _ _ RT) as (LT & _).
  assert (R : reach (normal conv text) t) by (eapply reach_weaken; [|exact RT]; intros l0 t0 (X & _); exact X).
  pose proof (normal_inv _ _ _ R) as H. destruct (reach_once _ _ _ R) as (OO & OS).
  assert (HS : inv_said conv text t) by (eapply reach_said; [|exact R]; intros l0 t0 (_ & _ & _ & D); exact D).
  assert (SA : forall tid np xs, In (GExtent tid np xs) (everything t) -> Forall (fun x => said conv (t_sites t) x (text x)) xs).
  { intros tid np xs HI. apply Forall_forall. intros x Hx. assert (Y := emitted_in tid np xs _ x HI Hx).
    destruct (emitted_buf True t tid H (tid_nonneg _ _ _ _ _ H HI)) as (b & B1 & B2 & n & B3); [intro X; rewrite X in Y; destruct Y|].
    rewrite B3 in Y. unfold inv_said in HS. eapply Forall_forall in HS; eauto. cbv beta in HS. eapply Forall_forall in HS; [exact HS|].
    rewrite <- (firstn_skipn n (b_msgs b)). apply in_or_app. now left. }
  pose proof H as H'. inv_split H'. destruct HKn as (K1 & K2 & _). unfold everything, sect in *. destruct HSi as (HSi & _).
  apply in_app_or in Hf. destruct Hf as [Hf|[<-|[]]].
  - rewrite gmsgs_app in LT. apply by_time_app in LT. destruct LT as (LT & _).
    assert (XX : forall g, In g (concat (t_golds t)) -> In g (concat (t_golds t) ++ t_gfile t ++ t_gflight t ++ t_glog t)) by (intros; apply in_or_app; now left).
    unfold inv_olds in HOl. set (all := concat (t_golds t) ++ t_gfile t ++ t_gflight t ++ t_glog t) in *. clearbody all. clear - HOl SA XX OO HSi Hf LT.
    induction HOl as [|g f' gs fs (A & B & C) _ IH]; [destruct Hf|]. inversion OO as [|? ? O1 O2]; subst.
    cbn [concat] in LT. rewrite gmsgs_app in LT. apply by_time_app in LT. destruct LT as (L1 & L2 & _).
    destruct Hf as [->|Hf].
    + eapply (file_in_order conv text (t_sites t) g f); auto. intros tid np xs HI. eapply SA, XX. cbn [concat]. apply in_or_app. left. exact HI.
    + apply IH; auto. intros x Hx. apply XX. cbn [concat]. apply in_or_app. now right.
  - rewrite !gmsgs_app in LT. apply by_time_app in LT. destruct LT as (_ & LT & _). apply by_time_app in LT. destruct LT as (LT & _).
    eapply (file_in_order conv text (t_sites t) (t_gfile t) (t_file t)); auto.
    + rewrite gok_app in K1. tauto.
    + destruct K2 as (r & u & c & gs & E). destruct (t_gfile t) as [|g gf]; [|cbn [app] in E; exists r, u, c, gf; congruence].
      exfalso. apply Hn. destruct HFi as (bss & W & ->). inversion W. reflexivity.
    + unfold once in *. rewrite filter_app, app_length in OS. lia.
    + intros tid np xs HI. eapply SA. apply in_or_app. right. apply in_or_app. left. exact HI.
Qed.
Print Assumptions C74_apart_partial.

(** In particular when threads log one after the other, each ending, and its buffer being deleted, before the next starts. *)
Definition alone (l : rlabel) (t : rt) : Prop := match l with RLog j _ => j = 0%nat /\ length (t_bufs t) = 1%nat | _ => True end.

Theorem C74_one_thread_partial : forall conv text t, reach (fun l t => normal conv text l t /\ clocked l t /\ alone l t) t ->
  forall f, In f (t_olds t ++ [t_file t]) -> f <> [] -> in_time_order conv f.
Proof.
  intros conv text t R. apply (C74_apart_partial conv text). eapply reach_weaken; [|exact R]. intros l s (A & B & C). split; [exact A|split; [exact B|]].
  destruct l; cbn [apart]; auto. destruct C as (-> & C). intros i b NE E. exfalso. assert (i < length (t_bufs s))%nat by (apply nth_error_Some; congruence). lia.
Qed.
Print Assumptions C74_one_thread_partial.

(** ** Not in general *)

(** Threads 1 and 2 log, in this order, while the thread is about to visit the buffer of thread 2; once more, and then thread 0 logs
    before the thread comes to it.  Each extent begins a new pass but the last. *)
Definition late_run : list rlabel :=
  think 27 ++ log 1 (msg 5 1) ++ log 2 (msg 10 2) ++ think 36 ++ log 1 (msg 20 3) ++ log 2 (msg 30 4) ++ think 10 ++ log 0 (msg 40 5) ++ think 12 ++
  [RIoDone 0] ++ think 7 ++ [RIoDone 0].

Definition clocked_b (l : rlabel) (t : rt) : bool :=
  match l with
  | RLog _ x => forallb (fun y => sm_ts y <=? sm_ts x) (logged t)
  | _ => true
  end.

Definition instant_b (l : rlabel) (t : rt) : bool :=
  match l with
  | RProducer _ | RCommitP _ | RRegister _ | RAlloc | RPush _ => true
  | RInterrupt => false
  | _ => forallb (fun b => match p_pc (r_p (b_ring b)), p_sb (r_p (b_ring b)) with PIdle, [] => true | _, _ => false end) (t_bufs t)
  end.

Definition late_chk (l : rlabel) (t : rt) : bool := clocked_b l t && instant_b l t.

Lemma late_chk_ok : forall l t, late_chk l t = true -> clocked l t /\ instant l t.
Proof.
  intros l t H. unfold late_chk in H. apply andb_prop in H. destruct H as (A & B). split.
  - destruct l; cbn [clocked clocked_b] in *; auto. rewrite forallb_forall in A. intros y Hy. apply Z.leb_le. auto.
  - destruct l; cbn [instant instant_b] in *; auto; try discriminate B.
    all: rewrite forallb_forall in B; intros b Hb; specialize (B b Hb); destruct (p_pc (r_p (b_ring b))); try discriminate B;
      destruct (p_sb (r_p (b_ring b))); try discriminate B; auto.
Qed.

Definition read_ordered (f : list Z) : option (list Z) :=
  match d_open_file new_decoder f with
  | Some (d1, true) => match decompressTo Prop_Message.show pick_first d1 with Some (_, evs, _) => Some (map sh_ts (messages (map line_of evs))) | None => None end
  | _ => None
  end.

Theorem C74_refuted : ~ C74_full.
Proof.
  intro H. destruct (demo_checked late_chk 300 3 late_run) as [t|] eqn:E.
  - assert (R : reach (fun l t => normal Prop_Message.show textof l t /\ clocked l t /\ instant l t) t).
    { apply (checked_states _ late_chk 300 3 late_run t); try lia; auto.
      - intros l s X ->. discriminate X.
      - intros l s X N. split; [exact N|]. destruct l; try discriminate X; split; exact I.
      - intros l s _ X N. split; [exact N|]. now apply late_chk_ok. }
    assert (X : match demo_checked late_chk 300 3 late_run with Some t => read_ordered (t_file t) = Some [5; 10; 30; 20; 40] /\ t_file t <> []
      | None => False end) by (vm_compute; split; [reflexivity|discriminate]).
    rewrite E in X. destruct X as (X1 & X2).
    destruct (H _ _ t R (t_file t) ltac:(apply in_or_app; right; now left) X2 new_decoder pick_first pick_first_heap) as (d1 & d2 & evs & ls & D1 & D2 & _ & _ & C).
    unfold read_ordered in X1. rewrite D1, D2 in X1. apply some_inj in X1. unfold chronological in C. rewrite X1 in C.
    inversion C as [|? ? C1 _]; subst. inversion C1 as [|? ? C2 _]; subst. inversion C2 as [|? ? _ C3]; subst. inversion C3; subst. lia.
  - assert (X : match demo_checked late_chk 300 3 late_run with Some _ => true | None => false end = true) by (vm_compute; reflexivity). rewrite E in X. discriminate X.
Qed.
Print Assumptions C74_refuted.

(** Messages of three threads that are taken one by one, in two files' worth of writes: printed in order.  Unordered
    decompression of the run above prints them in the order in which they were taken. *)
Definition apart_b (l : rlabel) (t : rt) : bool :=
  match l with
  | RLog j _ => forallb (fun i => (i =? j)%nat || match nth_error (t_bufs t) i with Some b => (b_taken b =? length (b_msgs b))%nat | None => true end) (seq 0 (length (t_bufs t)))
  | _ => true
  end.

Definition apart_run : list rlabel :=
  think 18 ++ log 2 (msg 5 1) ++ log 2 (msg 6 2) ++ think 20 ++ log 0 (msg 10 3) ++ think 20 ++ log 1 (msg 10 4) ++ think 20 ++ [RIoDone 0] ++ think 20 ++ [RIoDone 0].

Example C74_instance :
  match demo_checked (fun l t => clocked_b l t && apart_b l t) 300 3 apart_run, demo_checked late_chk 300 3 late_run, demo_checked apart_b 300 3 late_run with
  | Some t, Some t', None => read_ordered (t_file t) = Some [5; 6; 10; 10] /\
      option_map (map snd) (read_back (t_file t')) = Some [chars "n=" ++ [2]; chars "n=" ++ [1]; chars "n=" ++ [4]; chars "n=" ++ [5]; chars "n=" ++ [3]]
  | _, _, _ => False
  end.
Proof. vm_compute. splits; reflexivity. Qed.
