(** What holds in every state of the running system about staging buffers and output. *)
From Verif Require Import Base BaseProofs FrontFmt Args ArgsProofs DecodeProofs Encoder Wire EncoderProofs Prop_Encoder Decoder FileSpec
  DecoderProofs Prop_Decoder Ring RingProofs Prop_Ring Runtime RtRing RtBuf.
From Coq Require Import Permutation.

Ltac Zify.zify_post_hook ::= Z.div_mod_to_equations.

(** ** Definitions *)

Definition times_ok (rdtsc unixTime : Z) (cps : list Z) : Prop :=
  0 <= rdtsc < 2 ^ 64 /\ 0 <= unixTime < 2 ^ 64 /\ length cps = 8%nat /\ Forall is_byte cps.

(** The messages of buffer [id] in [gs]. *)
Definition emits (id : Z) (g : gitem) : list smsg :=
  match g with GExtent tid _ xs => if tid =? id then xs else [] | _ => [] end.

Definition emitted (id : Z) (gs : list gitem) : list smsg := concat (map (emits id) gs).

(** [bs] is how [g] is written. *)
Definition wire (small : Prop) (sites : list site) (g : gitem) (bs : list Z) : Prop :=
  match g with
  | GCheckpoint r u c => times_ok r u c /\ exists junk, 0 <= junk < 64 /\ bs = checkpoint_bytes junk r u c
  | GDict total ss => bs = dict_bytes total ss /\ 0 <= total < 2 ^ 32 /\ zlen bs < 2 ^ 30
  | GExtent tid np xs =>
      0 <= tid < 2 ^ 32 /\ (exists bss, staged_all sites xs bss) /\
      exists ws, compressed_all sites xs ws /\ bs = extent_bytes tid np ws /\ (small -> zlen bs <= EXTENT_MAX)
  end.

Definition wires (small : Prop) (sites : list site) (gs : list gitem) (bytes : list Z) : Prop :=
  exists bss, Forall2 (wire small sites) gs bss /\ bytes = concat bss.

(** Statements are defined before they are used; [k] are known. *)
Fixpoint gok (sites : list site) (k : nat) (gs : list gitem) : Prop :=
  match gs with
  | [] => True
  | GCheckpoint _ _ _ :: r => gok sites 0 r
  | GDict total ss :: r => ss = firstn (length ss) (skipn k sites) /\ total = Z.of_nat (k + length ss) /\ gok sites (k + length ss) r
  | GExtent _ _ xs :: r => Forall (fun x => sm_id x < Z.of_nat k) xs /\ gok sites k r
  end.

Fixpoint gknown (k : nat) (gs : list gitem) : nat :=
  match gs with
  | [] => k
  | GCheckpoint _ _ _ :: r => gknown 0 r
  | GDict _ ss :: r => gknown (k + length ss) r
  | GExtent _ _ _ :: r => gknown k r
  end.

Definition starts (gs : list gitem) : Prop := exists r u c gs', gs = GCheckpoint r u c :: gs'.

Definition inv_bufs (small : Prop) (sites : list site) (bufs gone : list buf) : Prop :=
  Forall (buf_ok small sites) bufs /\ Forall (buf_ok small sites) gone.

Definition inv_ids (bufs gone : list buf) (pend : list Z) (nextid : Z) : Prop :=
  let ids := map b_id bufs ++ map b_id gone ++ pend in
  NoDup ids /\ Forall (fun id => 0 <= id < nextid) ids /\ 0 <= nextid < 2 ^ 32 /\ zlen ids = nextid.

Definition acc_ok (all : list gitem) (b : buf) : Prop := emitted (b_id b) all = firstn (b_taken b) (b_msgs b).

Definition gone_ok (all : list gitem) (b : buf) : Prop := emitted (b_id b) all = b_msgs b /\ b_taken b = length (b_msgs b).

Definition inv_acc (all : list gitem) (bufs gone : list buf) (pend : list Z) (nextid : Z) : Prop :=
  Forall (acc_ok all) bufs /\ Forall (gone_ok all) gone /\ (forall id, In id pend \/ nextid <= id -> emitted id all = []).

(** The writes that completed, and what the others would write now. *)
Definition inv_subm (m : mem) (subm : list (list Z)) (file : list Z) (fl : list (Z * Z)) : Prop :=
  exists done, file = concat done /\ subm = done ++ map (fun p => load m (fst p) (Z.to_nat (snd p))) fl.

Definition inv_enc (osize : Z) (en : enc) (other : Z) : Prop :=
  enc_ok en /\ e_end en = e_base en + osize /\
  (e_base en + osize <= other \/ other + osize <= e_base en).

Definition inv_flight (osize : Z) (small : Prop) (sites : list site) (m : mem) (other : Z) (outst : bool) (fl : list (Z * Z)) (gfl : list gitem) : Prop :=
  (fl = [] /\ gfl = []) \/
  (outst = true /\ exists n, fl = [(other, n)] /\ 0 <= n <= osize /\ wires small sites gfl (load m other (Z.to_nat n))).

Definition inv_known (sites : list site) (nextp : Z) (shadow : list site) (sect : list gitem) : Prop :=
  gok sites 0 sect /\ starts sect /\ nextp = Z.of_nat (gknown 0 sect) /\ 0 <= nextp <= zlen sites /\ shadow = firstn (Z.to_nat nextp) sites.

Definition inv_sites (sites : list site) : Prop := Forall site_ok sites /\ zlen sites < 2 ^ 32.

Definition encoded_bytes (en : enc) : list Z := load (e_mem en) (e_base en) (Z.to_nat (getEncodedBytes en)).

Definition inv_olds (small : Prop) (sites : list site) (golds : list (list gitem)) (olds : list (list Z)) : Prop :=
  Forall2 (fun g b => wires small sites g b /\ gok sites 0 g /\ starts g) golds olds.

Definition inv_pc (pc : kpc) (outst : bool) (en : enc) : Prop :=
  match pc with
  | KWrite => outst = false
  | KExit => outst = false /\ getEncodedBytes en = 0
  | _ => True
  end.

Definition sect (t : rt) : list gitem := t_gfile t ++ t_gflight t ++ t_glog t.
Definition everything (t : rt) : list gitem := concat (t_golds t) ++ sect t.

Definition inv (small : Prop) (t : rt) : Prop :=
  inv_sites (t_sites t) /\
  inv_bufs small (t_sites t) (t_bufs t) (t_gone t) /\
  inv_ids (t_bufs t) (t_gone t) (t_pend t) (t_nextid t) /\
  inv_acc (everything t) (t_bufs t) (t_gone t) (t_pend t) (t_nextid t) /\
  inv_enc (t_osize t) (t_en t) (t_other t) /\
  inv_flight (t_osize t) small (t_sites t) (e_mem (t_en t)) (t_other t) (t_outst t) (t_flight t) (t_gflight t) /\
  wires small (t_sites t) (t_gfile t) (t_file t) /\
  wires small (t_sites t) (t_glog t) (encoded_bytes (t_en t)) /\
  inv_known (t_sites t) (t_nextp t) (t_shadow t) (sect t) /\
  inv_olds small (t_sites t) (t_golds t) (t_olds t) /\
  inv_subm (e_mem (t_en t)) (t_subm t) (t_file t) (t_flight t) /\
  inv_pc (t_kpc t) (t_outst t) (t_en t).

(** What may happen; nothing here excludes that the code behaves badly, except that no
    signal interrupts aio_suspend. *)
Definition legal (small : Prop) (l : rlabel) (t : rt) : Prop :=
  match l with
  | RRegister s => site_ok s /\ zlen (t_sites t) + 1 < 2 ^ 32
  | RAlloc => t_nextid t + 1 < 2 ^ 32
  | RLog j x => forall s, nth_error (t_sites t) (Z.to_nat (sm_id x)) = Some s ->
      staged_ok s x /\ (small -> zlen (staged_bytes s x) < STAGING_BUFFER_SIZE / 2)
  | RRestart r u c => times_ok r u c
  | RInterrupt => False
  | _ => True
  end.

(** ** Lists *)

Lemma update_nth : forall A j (x : A) l k, nth_error (update j x l) k =
  if (k =? j)%nat then match nth_error l j with Some _ => Some x | None => None end else nth_error l k.
Proof.
  induction j as [|j IH]; intros x [|y l] [|k]; cbn; auto.
  - destruct (k =? j)%nat; auto.
Qed.

Lemma Forall_update : forall A (P : A -> Prop) j x l, Forall P l -> P x -> Forall P (update j x l).
Proof. induction j; intros x l H Hx; destruct H; cbn; constructor; auto. Qed.

Lemma map_update : forall A B (f : A -> B) j x y l, nth_error l j = Some y -> f y = f x -> map f (update j x l) = map f l.
Proof.
  induction j as [|j IH]; intros x y [|z l] H E; try discriminate; cbn in *.
  - apply some_inj in H. subst. now rewrite E.
  - f_equal. eapply IH; eauto.
Qed.

Lemma update_length : forall A j (x : A) l, length (update j x l) = length l.
Proof. induction j; intros x [|y l]; cbn; auto. Qed.

Lemma remove_split : forall A j (x : A) l, nth_error l j = Some x -> l = firstn j l ++ x :: skipn (S j) l.
Proof. induction j as [|j IH]; intros x [|y l] H; try discriminate; cbn in *; [apply some_inj in H; now subst|]. f_equal. now apply IH. Qed.

Lemma remove_perm : forall A j (x : A) l, nth_error l j = Some x -> Permutation l (x :: remove_at j l).
Proof. intros A j x l H. rewrite (remove_split A j x l H) at 1. unfold remove_at. symmetry. apply Permutation_middle. Qed.

Lemma Forall_remove : forall A (P : A -> Prop) j l, Forall P l -> Forall P (remove_at j l).
Proof.
  intros A P j l H. unfold remove_at. apply Forall_app. split; [now apply Forall_firstn_in|].
  rewrite <- (firstn_skipn (S j) l) in H. now apply Forall_app in H.
Qed.

Lemma map_remove : forall A B (f : A -> B) j l, map f (remove_at j l) = remove_at j (map f l).
Proof. intros. unfold remove_at. now rewrite map_app, firstn_map, skipn_map. Qed.

(** ** Output *)

Lemma emitted_app : forall id a b, emitted id (a ++ b) = emitted id a ++ emitted id b.
Proof. intros. unfold emitted. now rewrite map_app, concat_app. Qed.

Lemma wire_more : forall small sites x g bs, wire small sites g bs -> wire small (sites ++ x) g bs.
Proof.
  intros small sites x [r u c|total ss|tid np xs] bs H; cbn [wire] in *; auto.
  destruct H as (A & (bss & B) & ws & C & D). split; [exact A|]. split; [exists bss; now apply staged_more|].
  exists ws. split; auto. now apply compressed_more.
Qed.

Lemma wires_more : forall small sites x gs bytes, wires small sites gs bytes -> wires small (sites ++ x) gs bytes.
Proof.
  intros small sites x gs bytes (bss & A & B). exists bss. split; auto. clear B.
  induction A; constructor; auto using wire_more.
Qed.

Lemma wires_app : forall small sites a b x y, wires small sites a x -> wires small sites b y -> wires small sites (a ++ b) (x ++ y).
Proof.
  intros small sites a b x y (p & A & ->) (q & B & ->). exists (p ++ q). split; [now apply Forall2_app|]. now rewrite concat_app.
Qed.

Lemma wires_nil : forall small sites, wires small sites [] [].
Proof. intros. exists []. split; [constructor|reflexivity]. Qed.

Lemma wires_one : forall small sites g bs, wire small sites g bs -> wires small sites [g] bs.
Proof. intros. exists [bs]. split; [constructor; auto; constructor|]. cbn. now rewrite app_nil_r. Qed.

Lemma gok_more : forall sites x gs k, gok sites k gs -> gok (sites ++ x) k gs.
Proof.
  intros sites x. induction gs as [|[r u c|total ss|tid np xs] gs IH]; intros k H; cbn [gok] in *; auto.
  - destruct H as (A & B & C). splits; auto.
    destruct (length ss) as [|n] eqn:EL; [destruct ss; [reflexivity|discriminate]|].
    rewrite <- EL in *. rewrite A at 1. symmetry. apply firstn_skipn_prefix.
    apply (f_equal (@length _)) in A. rewrite firstn_length, skipn_length in A. lia.
  - destruct H as (A & B). split; auto.
Qed.

Lemma gok_app : forall sites a b k, gok sites k (a ++ b) <-> gok sites k a /\ gok sites (gknown k a) b.
Proof.
  intros sites. induction a as [|[r u c|total ss|tid np xs] a IH]; intros b k; cbn [app gok gknown]; [tauto| | |]; rewrite ?IH; tauto.
Qed.

Lemma gknown_app : forall a b k, gknown k (a ++ b) = gknown (gknown k a) b.
Proof. induction a as [|[r u c|total ss|tid np xs] a IH]; intros b k; cbn [app gknown]; auto. Qed.

Lemma extent_zlen : forall tid np ws, 5 <= zlen (extent_bytes tid np ws).
Proof.
  intros. unfold extent_bytes. rewrite !zlen_app, zlen_cons, zlen_nil, le_bytes_zlen.
  pose proof (zlen_nonneg _ (tid_bytes tid)). pose proof (zlen_nonneg _ (wmsgs_bytes 0 ws)). lia.
Qed.

(** Something was appended to the encoder's buffer. *)
Definition appended (e e' : enc) (b : list Z) : Prop :=
  load (e_mem e') (e_wp e) (length b) = b /\ e_wp e' = e_wp e + zlen b /\ e_base e' = e_base e /\ e_end e' = e_end e /\
  e_hi e <= e_hi e' /\ e_wp e' <= e_hi e' <= e_end e' /\
  (forall y, y < e_wp e \/ e_hi e' <= y -> e_mem e' y = e_mem e y) /\ mem_bytes (e_mem e').

Lemma appended_enc : forall osize e e' b other, inv_enc osize e other -> appended e e' b ->
  inv_enc osize e' other /\ encoded_bytes e' = encoded_bytes e ++ b /\
  getEncodedBytes e' = getEncodedBytes e + zlen b /\
  (forall n, (n <= Z.to_nat osize)%nat -> load (e_mem e') other n = load (e_mem e) other n).
Proof.
  intros osize e e' b other ((A1 & A2 & A3 & A4) & A5 & A6) (B1 & B2 & B3 & B4 & B5 & B6 & B7 & B8).
  pose proof (zlen_nonneg _ b). unfold inv_enc, enc_ok, encoded_bytes, getEncodedBytes in *. splits; try lia; auto.
  - rewrite B2, B3. replace (Z.to_nat (e_wp e + zlen b - e_base e)) with (Z.to_nat (e_wp e - e_base e) + length b)%nat by (unfold zlen; lia).
    rewrite load_app. rewrite Z2Nat.id by lia. replace (e_base e + (e_wp e - e_base e)) with (e_wp e) by lia. rewrite B1. f_equal.
    apply load_ext. intros x Hx. apply B7. left. lia.
  - intros n Hn. apply load_ext. intros x Hx. apply B7.
    lia.
Qed.
