(** C12, C13, C15: the encoder. *)
From Verif Require Import Base BaseProofs Packer PackerProofs LogHeader LogHeaderProofs Chars FrontFmt Args ArgsProofs
  DecodeProofs Encoder Wire EncoderProofs.

(** C12.  The operations of an encoder.  A call of encodeLogMsgs comes with the
    messages [ms] staged at [from], recorded by statements of the table
    [sites], of which the encoder knows the first [known]. *)
Inductive eop :=
| OpMsgs (min : mem) (from nbytes tid : Z) (newPass : bool) (sites : list site) (known : nat) (ms : list smsg)
| OpDict (pos : Z) (sites : list site)
| OpCheckpoint (rdtsc unixTime : Z) (cps : list Z).

Definition do_op (e : enc) (o : eop) : enc :=
  match o with
  | OpMsgs min from nbytes tid np sites known _ => fst (fst (encodeLogMsgs e min from nbytes tid np (firstn known sites)))
  | OpDict pos sites => fst (fst (encodeNewDictionaryEntries e pos sites))
  | OpCheckpoint r u c => match insertCheckpoint e r u c with Some e' => e' | None => e end
  end.

Definition staged_at (sites : list site) (min : mem) (from : Z) (ms : list smsg) (bs : list (list Z)) : Prop :=
  staged_all sites ms bs /\ load min from (length (concat bs)) = concat bs.

Definition op_ok (o : eop) : Prop :=
  match o with
  | OpMsgs min from nbytes tid np sites known ms =>
      mem_bytes min /\ 0 <= tid < 2 ^ 32 /\
      exists bs, staged_at sites min from ms bs /\ 0 <= nbytes <= zlen (concat bs)
  | OpDict pos sites => Forall site_bytes sites /\ 0 <= pos <= zlen sites /\ zlen sites < 2 ^ 32
  | OpCheckpoint r u c => length c = 8%nat /\ Forall is_byte c
  end.

(** An encoder over a buffer; bytes from [e_hi] on are still as they were. *)
Definition enc_ok (e : enc) : Prop :=
  mem_bytes (e_mem e) /\ e_base e <= e_wp e <= e_hi e /\ e_hi e <= e_end e /\ e_end e - e_base e < 2 ^ 30.

Lemma firstn_zlen : forall A k (l : list A), zlen (firstn k l) <= Z.of_nat k.
Proof. intros. unfold zlen. apply inj_le. apply firstn_le_length. Qed.

Lemma nth_error_firstn_lt : forall A k (l : list A) i, (i < k)%nat -> nth_error (firstn k l) i = nth_error l i.
Proof. induction k; intros [|x l] [|i] H; cbn; auto; try lia. apply IHk. lia. Qed.

Lemma encodeLogMsgs_spec : forall sites known ms bs min from nbytes tid np e e' read k,
  staged_at sites min from ms bs -> mem_bytes min -> enc_ok e -> 0 <= tid < 2 ^ 32 ->
  0 <= nbytes <= zlen (concat bs) ->
  encodeLogMsgs e min from nbytes tid np (firstn known sites) = (e', read, k) ->
  (e_space e < 9 /\ e' = e /\ read = 0 /\ k = 0) \/
  exists n ws, 9 <= e_space e /\
    (n <= length ms)%nat /\ k = Z.of_nat n /\
    compressed_all sites (firstn n ms) ws /\
    read = zlen (concat (firstn n bs)) /\
    load (e_mem e') (e_wp e) (length (extent_bytes tid np ws)) = extent_bytes tid np ws /\
    e_wp e' = e_wp e + zlen (extent_bytes tid np ws) /\
    e_base e' = e_base e /\ e_end e' = e_end e /\
    e_hi e <= e_hi e' /\ e_wp e' <= e_hi e' <= e_end e' /\
    (forall y, y < e_wp e \/ e_hi e' <= y -> e_mem e' y = e_mem e y) /\
    mem_bytes (e_mem e') /\
    2 * zlen (extent_bytes tid np ws) <= 18 + 3 * read /\
    Forall (fun x => sm_id x < Z.of_nat known) (firstn n ms) /\
    (read < nbytes -> exists x b, nth_error ms n = Some x /\ nth_error bs n = Some b /\
       stopped (fun id => id <? zlen (firstn known sites)) (zlen b) x (nbytes - read) (e_space e')).
Proof.
  intros sites known ms bs min from nbytes tid np e e' read k [Hst HL] Hmin (Hm & Hb & Hh & Hs) Ht Hn E.
  unfold encodeLogMsgs in E.
  apply (encode_with_spec sites _ _ ms bs) in E; auto; try lia.
  - destruct E as [E|(n & ws & E)]; [left; exact E|right]. exists n, ws.
    destruct E as (A0 & A1 & A2 & A3 & A4 & A5 & A6 & A7 & A8 & A9 & A10 & A11 & A12 & A13 & A14 & A15). splits; auto; try lia.
    apply Forall_forall. intros x Hx. rewrite Forall_forall in A14. specialize (A14 x Hx). cbv beta in A14.
    pose proof (firstn_zlen _ known sites). lia.
  - intros id Hid0 Hid s Hs' min0 inp mout o. unfold site_compress.
    assert (nth_error (firstn known sites) (Z.to_nat id) = Some s) as ->; [|reflexivity].
    pose proof (firstn_zlen _ known sites). assert (Z.to_nat id < known)%nat by lia.
    rewrite nth_error_firstn_lt; auto.
  - unfold e_space. lia.
Qed.

Lemma op_frame : forall o e, enc_ok e -> op_ok o ->
  let e' := do_op e o in
  enc_ok e' /\ e_base e' = e_base e /\ e_end e' = e_end e /\ e_wp e <= e_wp e' /\ e_hi e <= e_hi e' /\
  (forall y, y < e_wp e \/ e_hi e' <= y -> e_mem e' y = e_mem e y).
Proof.
  intros o e He Ho e'. subst e'. destruct o as [min from nbytes tid np sites known ms|pos sites|r u c]; cbn [do_op op_ok] in *.
  - destruct Ho as (Hmin & Ht & bs & Hst & Hn).
    destruct (encodeLogMsgs e min from nbytes tid np (firstn known sites)) as [[e' read] k] eqn:E. cbn [fst].
    apply (encodeLogMsgs_spec sites known ms bs) in E; auto.
    destruct E as [(_ & -> & _)|(n & ws & A0 & A1 & A2 & A3 & A4 & A5 & A6 & A7 & A8 & A9 & A10 & A11 & A12 & _)].
    + destruct He as (H1 & H2 & H3 & H4). splits; auto; try lia. unfold enc_ok; splits; auto; lia.
    + destruct He as (H1 & H2 & H3 & H4). pose proof (zlen_nonneg _ (extent_bytes tid np ws)).
      splits; auto; try lia. unfold enc_ok; splits; auto; lia.
  - destruct Ho as (H1 & H2 & H3). pose proof He as He'. destruct He as (G1 & G2 & G3 & G4).
    destruct (encodeNewDictionaryEntries e pos sites) as [[e' pos'] ret] eqn:E. cbn [fst].
    assert (e_space e = e_end e - e_wp e) by reflexivity.
    apply dictionary_spec in E; auto; try lia.
    destruct E as [(_ & -> & _)|(A0 & A1 & A2 & A3 & A4 & A5 & A6 & A7 & A8 & A9 & A10 & _)].
    + splits; auto; lia.
    + pose proof (zlen_nonneg _ (dict_bytes pos' (firstn (Z.to_nat (pos' - pos)) (skipn (Z.to_nat pos) sites)))).
      splits; auto; try lia. unfold enc_ok; splits; auto; lia.
  - destruct Ho as (H1 & H2). pose proof He as He'. destruct He as (G1 & G2 & G3 & G4).
    destruct (insertCheckpoint e r u c) as [e'|] eqn:E; [|splits; auto; lia].
    apply checkpoint_spec in E; auto; try lia.
    destruct E as (A0 & j & A1 & A2 & A3 & A4 & A5 & A6 & A7 & A8 & A9 & A10).
    splits; auto; try lia. unfold enc_ok; splits; auto; lia.
Qed.

(** Every sequence of operations leaves everything outside the buffer, and
    everything emitted before, as it was; no byte was ever written at or above
    [e_hi], and that is inside the buffer. *)
Theorem C12_writes_inside_partial : forall ops e, enc_ok e -> Forall op_ok ops ->
  let e' := fold_left do_op ops e in
  e_base e' = e_base e /\ e_end e' = e_end e /\
  e_base e <= e_wp e <= e_wp e' /\ e_wp e' <= e_hi e' <= e_end e /\
  (forall y, y < e_wp e \/ e_hi e' <= y -> e_mem e' y = e_mem e y).
Proof.
  induction ops as [|o ops IH]; intros e He Ho e'; subst e'; cbn [fold_left].
  - destruct He as (G1 & G2 & G3 & G4). splits; auto; lia.
  - inversion Ho; subst. destruct (op_frame o e He H1) as (B1 & B2 & B3 & B4 & B5 & B6).
    specialize (IH (do_op e o) B1 H2). cbv zeta in IH. destruct IH as (I1 & I2 & I3 & I4 & I5).
    destruct He as (G1 & G2 & G3 & G4). rewrite B2, B3 in *.
    assert (M : e_hi (do_op e o) <= e_hi (fold_left do_op ops (do_op e o))).
    { clear - B1 H2. revert B1 H2. generalize (do_op e o). induction ops as [|o' ops IH]; intros d Hd Hops; cbn [fold_left]; [lia|].
      inversion Hops; subst. destruct (op_frame o' d Hd H1) as (C1 & _ & _ & _ & C5 & _).
      specialize (IH (do_op d o') C1 H2). lia. }
    splits; try lia.
Qed.
Print Assumptions C12_writes_inside_partial.

(** A checkpoint, a dictionary fragment and an extent with one message. *)
Definition demo_site : site := Site 2 17 (chars "a.cc") (chars "x=%d %s") 1 [PT_NON_STRING; PT_STRING_WITH_NO_PRECISION]
  [TyInt (Ity true 4); TyStr].
Definition demo_msg : smsg := SMsg 0 1000 [AInt (Ity true 4) (-7); AStr 4096 [104; 105; 0]] [0; 2].
Definition demo_min : mem := store (fun _ => 0) 500 (staged_bytes demo_site demo_msg).
Definition demo_enc : enc := Enc (fun _ => 255) 100 100 300 None 100.
Definition demo_ops : list eop :=
  [OpCheckpoint 5 6 (le_bytes 8 7); OpDict 0 [demo_site]; OpMsgs demo_min 500 26 20 true [demo_site] 1 [demo_msg]].

Lemma demo_staged : staged_at [demo_site] demo_min 500 [demo_msg] [staged_bytes demo_site demo_msg].
Proof.
  split; [|vm_compute; reflexivity]. constructor; [|constructor]. exists demo_site. split; [reflexivity|]. split; [|reflexivity].
  unfold staged_ok, demo_msg, demo_site. cbn [sm_id sm_ts sm_args sm_ns si_types si_params si_nibbles].
  splits; try (apply Z.leb_le || apply Z.ltb_lt; vm_compute; reflexivity); try reflexivity.
  - constructor; [|constructor; [|constructor]].
    + split; [cbn [it_bytes]; lia|]. split; [apply Z.leb_le | apply Z.ltb_lt]; reflexivity.
    + split; [lia|]. repeat (constructor; [unfold is_byte; lia|]). constructor.
  - cbn [sizes_ok string_bytes]. splits; try exact I; intro H; try discriminate H. splits; try lia; try exact I. vm_compute. discriminate.
  - cbn [strings_ok]. splits; try exact I; intro H; try discriminate H; reflexivity.
Qed.

Example C12_instance :
  enc_ok demo_enc /\ Forall op_ok demo_ops /\
  let e := fold_left do_op demo_ops demo_enc in
  e_wp e = 178 /\ e_hi e = 179 /\
  load (e_mem e) 163 20 = [22; 15; 0; 0; 0; 20; 33; 0; 232; 3; 9; 7; 104; 105; 0; 0; 255; 255; 255; 255].
Proof.
  splits.
  - unfold enc_ok, demo_enc; cbn [e_mem e_base e_wp e_hi e_end]. splits; try lia. intro. unfold is_byte. lia.
  - constructor; [|constructor; [|constructor; [|constructor]]]; cbn [op_ok].
    + split; [reflexivity|apply le_bytes_is_byte].
    + splits; try (apply Z.leb_le || apply Z.ltb_lt; vm_compute; reflexivity). constructor; [|constructor].
      split; apply Forall_forall; vm_compute; intuition (subst; discriminate || reflexivity).
    + splits; try (apply Z.leb_le || apply Z.ltb_lt; vm_compute; reflexivity).
      * unfold demo_min. apply store_bytes; [intro; unfold is_byte; lia|].
        apply Forall_forall. vm_compute. intuition (subst; discriminate || reflexivity).
      * exists [staged_bytes demo_site demo_msg]. split; [exact demo_staged|].
        split; apply Z.leb_le; vm_compute; reflexivity.
  - vm_compute. repeat split; reflexivity.
Qed.

(** C12 in full would hold for every statement that compiles; it does not: a
    pointer to unsigned char given to [%s] is staged as a pointer, but compressed
    as a string whose length is the low half of the pointer. *)
Definition encoder_confined : Prop := forall fmt args nib n pts m p ts r e tid np e' read k,
  analyze fmt = Some (nib, n, pts) -> n = length args -> Forall wf_arg args ->
  mem_bytes m -> log_record m p 0 ts pts args = Some r ->
  enc_ok e ->
  encodeLogMsgs e (lr_mem r) p (lr_alloc r) tid np [Site 0 0 [] fmt nib pts (map aty_of args)] = (e', read, k) ->
  forall y, y < e_wp e \/ e_end e <= y -> e_mem e' y = e_mem e y.

Theorem C12_refuted_uchar_string : ~ encoder_confined.
Proof.
  intro H.
  set (args := [APtr 1 (2 ^ 32 + 200) [65; 0]]).
  set (m := (fun _ => 7) : mem). set (e := Enc (fun _ => 0) 0 0 100 None 0).
  assert (EA : analyze (chars "%s") = Some (0, 1%nat, [PT_STRING_WITH_NO_PRECISION])) by (vm_compute; reflexivity).
  destruct (log_record m 1000 0 0 [PT_STRING_WITH_NO_PRECISION] args) as [r|] eqn:ER; [|vm_compute in ER; discriminate].
  destruct (encodeLogMsgs e (lr_mem r) 1000 (lr_alloc r) 3 false
    [Site 0 0 [] (chars "%s") 0 [PT_STRING_WITH_NO_PRECISION] (map aty_of args)]) as [[e' read] k] eqn:EE.
  assert (X : e_mem e' 150 = 7).
  { assert (E2 : option_map (fun r => e_mem (fst (fst (encodeLogMsgs e (lr_mem r) 1000 (lr_alloc r) 3 false
      [Site 0 0 [] (chars "%s") 0 [PT_STRING_WITH_NO_PRECISION] (map aty_of args)]))) 150)
      (log_record m 1000 0 0 [PT_STRING_WITH_NO_PRECISION] args) = Some 7) by (vm_compute; reflexivity).
    rewrite ER in E2. cbn [option_map] in E2. rewrite EE in E2. cbn [fst] in E2. congruence. }
  specialize (H _ args 0 1%nat _ m 1000 0 r e 3 false e' read k EA eq_refl).
  assert (Y : e_mem e' 150 = e_mem e 150).
  { apply H; auto.
    - constructor; [|constructor]. cbn [wf_arg]. lia.
    - intro x. unfold m, is_byte. lia.
    - unfold enc_ok, e. cbn [e_mem e_base e_wp e_hi e_end]. splits; try lia. intro. unfold is_byte. lia.
    - right. cbn [e e_end]. lia. }
  rewrite X in Y. cbn [e e_mem] in Y. discriminate Y.
Qed.
Print Assumptions C12_refuted_uchar_string.

(** C13.  The staged messages are taken by a sequence of calls, each with its
    own output buffer state, dictionary and byte budget; each call continues where
    the previous one said it stopped. *)
Record call := Call { c_enc : enc; c_n : Z; c_tid : Z; c_np : bool; c_known : nat }.

Fixpoint drain (sites : list site) (min : mem) (from left : Z) (cs : list call) : list (enc * Z) :=
  match cs with
  | [] => []
  | c :: r =>
      let '(e', read, _) := encodeLogMsgs (c_enc c) min from (Z.min (c_n c) left) (c_tid c) (c_np c) (firstn (c_known c) sites) in
      (e', read) :: drain sites min (from + read) (left - read) r
  end.

Definition call_ok (c : call) : Prop := enc_ok (c_enc c) /\ 0 <= c_n c /\ 0 <= c_tid c < 2 ^ 32.

(** What one call left in its output buffer. *)
Definition emitted (c : call) (e' : enc) (ws : list wmsg) : Prop :=
  if e_space (c_enc c) <? 9 then e' = c_enc c /\ ws = []
  else load (e_mem e') (e_wp (c_enc c)) (length (extent_bytes (c_tid c) (c_np c) ws)) = extent_bytes (c_tid c) (c_np c) ws /\
       e_wp e' = e_wp (c_enc c) + zlen (extent_bytes (c_tid c) (c_np c) ws).

Fixpoint emitted_all (cs : list call) (out : list (enc * Z)) (wss : list (list wmsg)) : Prop :=
  match cs, out, wss with
  | [], [], [] => True
  | c :: cs', (e', _) :: out', ws :: wss' => emitted c e' ws /\ emitted_all cs' out' wss'
  | _, _, _ => False
  end.

Lemma firstn_plus : forall A n m (l : list A), firstn (n + m) l = firstn n l ++ firstn m (skipn n l).
Proof. induction n; intros m [|x l]; cbn; auto. - now rewrite firstn_nil. - now rewrite IHn. Qed.

Lemma compressed_all_app : forall sites a b wa wb, compressed_all sites a wa -> compressed_all sites b wb ->
  compressed_all sites (a ++ b) (wa ++ wb).
Proof.
  induction a as [|x a IH]; intros b [|w wa] wb Ha Hb; cbn [compressed_all app] in *; try tauto.
  destruct Ha. split; auto.
Qed.

Lemma staged_at_skip : forall sites n min from ms bs, staged_at sites min from ms bs ->
  staged_at sites min (from + zlen (concat (firstn n bs))) (skipn n ms) (skipn n bs) /\
  zlen (concat bs) = zlen (concat (firstn n bs)) + zlen (concat (skipn n bs)).
Proof.
  intros sites n min from ms bs [H1 H2]. split.
  - split.
    + clear H2. revert n. induction H1; intros [|n]; cbn [skipn]; try constructor; auto.
    + rewrite <- (firstn_skipn n bs) in H2. rewrite concat_app in H2. apply load_split in H2. apply H2.
  - rewrite <- (firstn_skipn n bs) at 1. rewrite concat_app, zlen_app. reflexivity.
Qed.

Theorem C13_exactly_once : forall sites cs ms bs min from, Forall call_ok cs -> mem_bytes min ->
  staged_at sites min from ms bs ->
  let out := drain sites min from (zlen (concat bs)) cs in
  exists N wss, (N <= length ms)%nat /\
    compressed_all sites (firstn N ms) (concat wss) /\
    emitted_all cs out wss /\
    fold_right Z.add 0 (map snd out) = zlen (concat (firstn N bs)).
Proof.
  intros sites. induction cs as [|c cs IH]; intros ms bs min from Hc Hmin Hst out.
  - exists 0%nat, []. subst out. cbn. splits; auto; lia.
  - subst out. inversion Hc as [|? ? Hc1 Hc2]; subst. destruct Hc1 as (C1 & C2 & C3). cbn [drain].
    pose proof (zlen_nonneg _ (concat bs)).
    destruct (encodeLogMsgs (c_enc c) min from (Z.min (c_n c) (zlen (concat bs))) (c_tid c) (c_np c) (firstn (c_known c) sites))
      as [[e' read] k] eqn:E.
    apply (encodeLogMsgs_spec sites (c_known c) ms bs) in E; auto; try lia.
    destruct E as [(E1 & -> & -> & _)|(n & ws & A0 & A1 & A2 & A3 & A4 & A5 & A6 & _)].
    + rewrite Z.add_0_r, Z.sub_0_r.
      destruct (IH ms bs min from Hc2 Hmin Hst) as (N & wss & I1 & I2 & I3 & I4).
      exists N, ([] :: wss). cbn [concat app emitted_all map snd fold_right].
      splits; auto. unfold emitted. replace (e_space (c_enc c) <? 9) with true by lia. auto.
    + destruct (staged_at_skip sites n min from ms bs Hst) as [S1 S2]. rewrite <- A4 in S1, S2.
      replace (zlen (concat bs) - read) with (zlen (concat (skipn n bs))) by lia.
      destruct (IH _ _ min (from + read) Hc2 Hmin S1) as (N & wss & I1 & I2 & I3 & I4).
      rewrite skipn_length in I1.
      exists (n + N)%nat, (ws :: wss). cbn [concat emitted_all map snd fold_right].
      rewrite !firstn_plus. splits; auto; try lia.
      * apply compressed_all_app; auto.
      * unfold emitted. replace (e_space (c_enc c) <? 9) with false by lia. auto.
      * rewrite concat_app, zlen_app. lia.
Qed.
Print Assumptions C13_exactly_once.

(** A call takes at least the first message if its statement is known, the
    output buffer has room for it, and the budget covers it (or it is over the
    size limit, when the budget is ignored). *)
Theorem C13_progress : forall sites c ms bs x b min from e' read k, call_ok c -> mem_bytes min ->
  staged_at sites min from (x :: ms) (b :: bs) -> c_n c <= zlen (concat (b :: bs)) ->
  sm_id x < zlen (firstn (c_known c) sites) ->
  25 + 2 * zlen b <= e_space (c_enc c) ->
  zlen b <= c_n c \/ (0 < c_n c /\ STAGING_BUFFER_SIZE / 2 <= zlen b) ->
  encodeLogMsgs (c_enc c) min from (c_n c) (c_tid c) (c_np c) (firstn (c_known c) sites) = (e', read, k) ->
  zlen b <= read /\ 1 <= k.
Proof.
  intros sites c ms bs x b min from e' read k (C1 & C2 & C3) Hmin Hst Hn Hid Hsp Hb E.
  apply (encodeLogMsgs_spec sites (c_known c) (x :: ms) (b :: bs)) in E; auto.
  pose proof (zlen_nonneg _ b).
  destruct E as [(E1 & _)|(n & ws & A0 & A1 & A2 & A3 & A4 & A5 & A6 & A7 & A8 & A9 & A10 & A11 & A12 & A13 & A14 & A15)]; [lia|].
  assert (Zb : 16 <= zlen b).
  { destruct Hst as [Hst _]. inversion Hst as [|? ? ? ? Hx _]; subst. destruct Hx as (s & _ & _ & ->). rewrite staged_zlen.
    pose proof (zlen_nonneg _ (imgs (si_params s) (sm_ns x) (sm_args x))). lia. }
  destruct n as [|n].
  - cbn [firstn concat] in *. rewrite zlen_nil in A4. subst read.
    destruct ws as [|w ws]; [|destruct A3].
    assert (zlen (extent_bytes (c_tid c) (c_np c) []) <= 9).
    { unfold extent_bytes, tid_bytes. cbn [wmsgs_bytes]. rewrite !zlen_app, zlen_cons, !zlen_nil, le_bytes_zlen.
      destruct (c_tid c <? 16); [rewrite zlen_nil; lia|]. rewrite ubytes_zlen. pose proof (num_bytes_u32 (c_tid c) C3). lia. }
    assert (e_space e' >= e_space (c_enc c) - 9) by (unfold e_space; lia).
    destruct A15 as (x' & b' & N1 & N2 & N3); [lia|]. cbn [nth_error] in N1, N2.
    assert (x' = x /\ b' = b) as [-> ->] by (split; congruence).
    unfold stopped in N3. destruct N3 as [N3|[N3|N3]]; lia.
  - cbn [firstn concat] in A4. rewrite zlen_app in A4. pose proof (zlen_nonneg _ (concat (firstn n bs))). lia.
Qed.
Print Assumptions C13_progress.

(** Two calls for one staged message: in the first the buffer is too small. *)
Example C13_instance :
  let cs := [Call (Enc (fun _ => 0) 0 0 40 None 0) 26 20 true 1; Call (Enc (fun _ => 9) 0 0 100 None 0) 26 20 false 1] in
  Forall call_ok cs /\
  staged_at [demo_site] demo_min 500 [demo_msg] [staged_bytes demo_site demo_msg] /\
  map (fun r => (e_wp (fst r), snd r)) (drain [demo_site] demo_min 500 26 cs) = [(6, 0); (15, 26)] /\
  map (fun r => load (e_mem (fst r)) 0 15) (drain [demo_site] demo_min 500 26 cs) =
    [[22; 6; 0; 0; 0; 20; 0; 0; 0; 0; 0; 0; 0; 0; 0]; [18; 15; 0; 0; 0; 20; 33; 0; 232; 3; 9; 7; 104; 105; 0]].
Proof.
  intro cs. split; [|split; [exact demo_staged|split; vm_compute; reflexivity]]. subst cs.
  repeat (constructor; [unfold call_ok, enc_ok; cbn [c_enc c_n c_tid e_mem e_base e_wp e_hi e_end]; splits; try lia;
    intro; unfold is_byte; lia|]). constructor.
Qed.

(** C15.  The decompressor stores an extent in STAGING_BUFFER_SIZE bytes plus
    the largest extent header (BufferFragment::storage, runtime/Log.h:905-910);
    the background thread encodes at most RELEASE_THRESHOLD bytes per call
    (runtime/RuntimeLogger.cc:436-439), which is half the staging buffer
    (runtime/Config.h). *)
Definition DECODER_STORAGE := STAGING_BUFFER_SIZE + 9.
Definition RELEASE_THRESHOLD := 2 ^ 19.

Lemma loop_budget : forall sites known cf ms bs fuel min from rem last e e' rem' k,
  staged_all sites ms bs -> load min from (length (concat bs)) = concat bs -> 0 <= rem <= zlen (concat bs) ->
  Forall (fun b => zlen b < STAGING_BUFFER_SIZE / 2) bs ->
  encode_loop known cf fuel min from rem last e = (e', rem', k) -> 0 <= rem'.
Proof.
  intros sites known cf. induction ms as [|x ms IH]; intros bs fuel min from rem last e e' rem' k Hst HL Hr Hb E;
    (destruct fuel as [|fuel]; cbn [encode_loop] in E; [assert (rem' = rem) by congruence; lia|]);
    (destruct (rem <=? 0) eqn:Er; [assert (rem' = rem) by congruence; lia|]).
  - inversion Hst; subst. cbn [concat] in Hr. rewrite zlen_nil in Hr. lia.
  - cbv zeta in E. inversion Hst as [|x0 b ms0 bs' Hx Hst' E1 E2]; subst.
    destruct Hx as (s & Hs & Hok & ->). inversion Hb; subst. cbn [concat] in HL, Hr. rewrite zlen_app in Hr.
    apply load_split in HL. destruct HL as [L1 L2]. destruct (staged_read s x min from Hok L1) as (R1 & R2 & R3 & _).
    rewrite R2 in E. destruct (negb _); [assert (rem' = rem) by congruence; lia|].
    destruct ((rem <? zlen (staged_bytes s x)) && (zlen (staged_bytes s x) <? STAGING_BUFFER_SIZE / 2)) eqn:Ec;
      [assert (rem' = rem) by congruence; lia|].
    destruct (e_space e <? _); [assert (rem' = rem) by congruence; lia|].
    match type of E with context [encode_loop ?a ?b ?c ?d ?f ?g ?h ?i] =>
      destruct (encode_loop a b c d f g h i) as [[e2 r2] k2] eqn:EL end.
    assert (rem' = r2) by congruence. subst r2.
    apply andb_false_iff in Ec. eapply (IH bs'); eauto; lia.
Qed.

Theorem C15_extents_fit_partial : forall sites c ms bs min from e' read k, call_ok c -> mem_bytes min ->
  staged_at sites min from ms bs -> c_n c <= zlen (concat bs) -> c_n c <= RELEASE_THRESHOLD ->
  Forall (fun b => zlen b < STAGING_BUFFER_SIZE / 2) bs ->
  encodeLogMsgs (c_enc c) min from (c_n c) (c_tid c) (c_np c) (firstn (c_known c) sites) = (e', read, k) ->
  read <= c_n c /\ e_wp e' - e_wp (c_enc c) <= 18 / 2 + 3 * read / 2 /\ e_wp e' - e_wp (c_enc c) <= DECODER_STORAGE.
Proof.
  intros sites c ms bs min from e' read k (C1 & C2 & C3) Hmin Hst Hn Hr Hb E.
  pose proof E as E0. apply (encodeLogMsgs_spec sites (c_known c) ms bs) in E; auto.
  destruct E as [(E1 & -> & -> & _)|(n & ws & A0 & A1 & A2 & A3 & A4 & A5 & A6 & A7 & A8 & A9 & A10 & A11 & A12 & A13 & A14 & A15)].
  { unfold DECODER_STORAGE, STAGING_BUFFER_SIZE. lia. }
  assert (R : read <= c_n c).
  { unfold encodeLogMsgs, encode_with in E0.
    destruct (encodeBufferExtentStart (c_enc c) (c_tid c) (c_np c)) as [e1|]; [|assert (read = 0) by congruence; lia].
    match type of E0 with context [encode_loop ?a ?b ?c ?d ?f ?g ?h ?i] =>
      destruct (encode_loop a b c d f g h i) as [[e2 r2] k2] eqn:EL end.
    assert (read = c_n c - r2) by congruence. destruct Hst as [Hst HL]. apply (loop_budget sites _ _ ms bs) in EL; auto. lia. }
  unfold DECODER_STORAGE, STAGING_BUFFER_SIZE, RELEASE_THRESHOLD in *. lia.
Qed.
Print Assumptions C15_extents_fit_partial.

(** In full the claim would cover every message a staging buffer can hold.  It
    fails for a message of exactly half the staging buffer, which is encoded even
    if the budget does not cover it, behind messages that grow when compressed. *)
Definition extents_fit : Prop := forall sites c ms bs min from e' read k, call_ok c -> mem_bytes min ->
  staged_at sites min from ms bs -> zlen (concat bs) < STAGING_BUFFER_SIZE ->
  c_n c <= zlen (concat bs) -> c_n c <= RELEASE_THRESHOLD ->
  encodeLogMsgs (c_enc c) min from (c_n c) (c_tid c) (c_np c) (firstn (c_known c) sites) = (e', read, k) ->
  e_wp e' - e_wp (c_enc c) <= DECODER_STORAGE.

Definition dbl_site : site := Site 0 1 (chars "a.cc") (concat (repeat (chars "%f") 30)) 30 (repeat PT_NON_STRING 30) (repeat (TyFlt 8) 30).
Definition str_site : site := Site 0 2 (chars "a.cc") (chars "%s") 0 [PT_STRING_WITH_NO_PRECISION] [TyStr].
Definition dbl_msg : smsg := SMsg 0 0 (repeat (AFlt (repeat 1 8)) 30) (repeat 0 30).
Definition str_msg (k : Z) : smsg := SMsg 1 0 [AStr 4096 (repeat 65 (Z.to_nat k) ++ [0])] [k].

Lemma dbl_staged_ok : staged_ok dbl_site dbl_msg.
Proof.
  unfold staged_ok. splits; try (apply Z.leb_le || apply Z.ltb_lt; vm_compute; reflexivity); try reflexivity.
  - apply Forall_forall. intros a Ha. apply repeat_spec in Ha. subst a. split; [cbn [length repeat]; lia|].
    apply Forall_forall. intros b Hb. apply repeat_spec in Hb. subst. unfold is_byte. lia.
  - cbn [dbl_site dbl_msg si_params sm_ns sm_args repeat sizes_ok]. repeat (split; [intro H; discriminate H|]). exact I.
  - cbn [dbl_site dbl_msg si_params sm_ns sm_args repeat strings_ok]. repeat (split; [intro H; discriminate H|]). exact I.
Qed.

Lemma all_bytes : forall l, forallb (fun b => (0 <=? b) && (b <? 256)) l = true -> Forall is_byte l.
Proof.
  intros l H. apply Forall_forall. intros b Hb. rewrite forallb_forall in H. specialize (H b Hb).
  apply andb_true_iff in H. unfold is_byte. lia.
Qed.

Lemma repeat_zlen : forall A (a : A) n, zlen (repeat a n) = Z.of_nat n.
Proof. intros. unfold zlen. now rewrite repeat_length. Qed.

Lemma str_imgs : forall k, 0 <= k -> imgs [PT_STRING_WITH_NO_PRECISION] [k] (sm_args (str_msg k)) =
  le_bytes 4 k ++ repeat 65 (Z.to_nat k).
Proof.
  intros k Hk. cbn [imgs str_msg sm_args]. unfold img. cbn [is_string_arg]. change (PT_STRING_WITH_NO_PRECISION <=? PT_NON_STRING) with false.
  cbn [andb negb string_bytes]. rewrite app_nil_r, firstn_app, firstn_all2 by (rewrite repeat_length; lia).
  rewrite repeat_length, Nat.sub_diag. cbn [firstn]. now rewrite app_nil_r.
Qed.

Lemma str_staged_ok : forall k, 0 <= k < 2 ^ 20 -> staged_ok str_site (str_msg k) /\ zlen (staged_bytes str_site (str_msg k)) = k + 20.
Proof.
  intros k Hk. assert (Z1 : zlen (staged_bytes str_site (str_msg k)) = k + 20).
  { rewrite staged_zlen. cbn [str_site si_params]. change (sm_ns (str_msg k)) with [k].
    rewrite str_imgs, zlen_app, le_bytes_zlen, repeat_zlen by lia. lia. }
  split; auto. unfold staged_ok. rewrite Z1. splits; try lia; try reflexivity;
    try (cbn [str_msg sm_id sm_ts]; lia).
  - constructor; [|constructor]. split; [lia|]. apply Forall_app. split; [|repeat constructor; unfold is_byte; lia].
    apply Forall_forall. intros b Hb. apply repeat_spec in Hb. subst. unfold is_byte. lia.
  - cbn [str_site str_msg si_params sm_ns sm_args sizes_ok string_bytes]. split; auto. intros _.
    rewrite zlen_app, repeat_zlen. pose proof (zlen_nonneg _ [0]). lia.
  - cbn [str_site str_msg si_params sm_args strings_ok]. auto.
Qed.

Lemma dbl_big : forall w last, compressed dbl_site dbl_msg w -> 258 <= zlen (wmsg_bytes last w).
Proof.
  intros w last (Hi & _ & H & _). unfold wmsg_bytes. rewrite zlen_app, H, Hi.
  pose proof (hbytes_zlen (sm_id dbl_msg) (w_ts w) last ltac:(cbn; lia)).
  change (zlen (pvals (si_params dbl_site) (sm_args dbl_msg))) with 30.
  change (zlen (pvalues (pvals (si_params dbl_site) (sm_args dbl_msg)))) with 240.
  change (zlen (strs (si_params dbl_site) (sm_ns dbl_msg) (sm_args dbl_msg))) with 0. change ((30 + 1) / 2) with 15. lia.
Qed.

Lemma str_big : forall k w last, 0 <= k -> compressed str_site (str_msg k) w -> k + 3 <= zlen (wmsg_bytes last w).
Proof.
  intros k w last Hk (Hi & _ & H & _). unfold wmsg_bytes. rewrite zlen_app, H, Hi.
  pose proof (hbytes_zlen (sm_id (str_msg k)) (w_ts w) last ltac:(cbn [str_msg sm_id]; lia)).
  assert (k <= zlen (strs (si_params str_site) (sm_ns (str_msg k)) (sm_args (str_msg k)))).
  { cbn [str_site str_msg si_params sm_ns sm_args strs]. unfold is_strp. change (PT_NON_STRING <? PT_STRING_WITH_NO_PRECISION) with true.
    cbn [andb is_string_arg]. unfold str_out. cbn [string_bytes]. rewrite !zlen_app, firstn_app, firstn_all2 by (rewrite repeat_length; lia).
    rewrite zlen_app, repeat_zlen. pose proof (zlen_nonneg _ (firstn (Z.to_nat k - length (repeat 65 (Z.to_nat k))) [0])).
    match goal with |- context [repeat 0 ?n] => pose proof (zlen_nonneg _ (repeat 0 n)) end. rewrite zlen_nil. lia. }
  pose proof (zlen_nonneg _ (pvals (si_params str_site) (sm_args (str_msg k)))).
  pose proof (zlen_nonneg _ (pvalues (pvals (si_params str_site) (sm_args (str_msg k))))). lia.
Qed.

Lemma many_big : forall N k ws last, 0 <= k -> compressed_all [dbl_site; str_site] (repeat dbl_msg N ++ [str_msg k]) ws ->
  258 * Z.of_nat N + k + 3 <= zlen (wmsgs_bytes last ws).
Proof.
  induction N as [|N IH]; intros k [|w ws] last Hk H; cbn [repeat app compressed_all] in H; try tauto.
  - destruct H as [(s & Hs & Hc) H]. assert (s = str_site) by (assert (Some s = Some str_site) by (rewrite <- Hs; reflexivity); congruence). subst s.
    cbn [wmsgs_bytes]. rewrite zlen_app. pose proof (str_big k w last Hk Hc). pose proof (zlen_nonneg _ (wmsgs_bytes (w_ts w) ws)). lia.
  - destruct H as [(s & Hs & Hc) H]. assert (s = dbl_site) by (assert (Some s = Some dbl_site) by (rewrite <- Hs; reflexivity); congruence). subst s.
    cbn [wmsgs_bytes]. rewrite zlen_app. pose proof (dbl_big w last Hc). specialize (IH k ws (w_ts w) Hk H). lia.
Qed.

Lemma concat_repeat_zlen : forall A (b : list A) n, zlen (concat (repeat b n)) = Z.of_nat n * zlen b.
Proof. induction n; cbn [repeat concat]; [reflexivity|]. rewrite zlen_app, IHn. lia. Qed.

Lemma staged_many : forall N k, 0 <= k < 2 ^ 20 -> staged_all [dbl_site; str_site] (repeat dbl_msg N ++ [str_msg k])
  (repeat (staged_bytes dbl_site dbl_msg) N ++ [staged_bytes str_site (str_msg k)]).
Proof.
  intros N k Hk. unfold staged_all. induction N as [|N IH]; cbn [repeat app].
  - constructor; [|constructor]. exists str_site. splits; auto; try reflexivity; apply (str_staged_ok k Hk).
  - constructor; auto. exists dbl_site. splits; auto. apply dbl_staged_ok.
Qed.

Lemma nth_error_last_repeat : forall A n (a b x : A) i, nth_error (repeat a n ++ [b]) i = Some x -> (i < n)%nat -> x = a.
Proof.
  intros A n a b x i H Hi. rewrite nth_error_app1 in H by (now rewrite repeat_length).
  apply nth_error_In in H. now apply repeat_spec in H.
Qed.

Lemma firstn_sum : forall n N (b t : list Z), (n <= N)%nat ->
  zlen (concat (firstn n (repeat b N ++ [t]))) = Z.of_nat n * zlen b.
Proof.
  intros n N b t H. rewrite firstn_app, repeat_length. replace (n - N)%nat with 0%nat by lia.
  cbn [firstn]. rewrite app_nil_r. assert (firstn n (repeat b N) = repeat b n) as ->.
  { revert N H. induction n; intros [|N] H; cbn; try reflexivity; try lia. f_equal. apply IHn. lia. }
  apply concat_repeat_zlen.
Qed.

Theorem C15_refuted_half_buffer : ~ extents_fit.
Proof.
  intro H.
  set (N := Z.to_nat 2047). set (k := 2 ^ 19 - 20). assert (Hk : 0 <= k < 2 ^ 20) by (subst k; lia).
  assert (ZN : Z.of_nat N = 2047) by (subst N; lia). assert (Zk : k = 2 ^ 19 - 20) by reflexivity. clearbody N k.
  set (ms := repeat dbl_msg N ++ [str_msg k]).
  set (bs := repeat (staged_bytes dbl_site dbl_msg) N ++ [staged_bytes str_site (str_msg k)]).
  set (min := store (fun _ => 0) 0 (concat bs)).
  set (e := Enc (fun _ => 0) 0 0 (2 ^ 26) None 0).
  set (c := Call e (2 ^ 19) 3 false 2).
  pose proof (staged_many N k Hk) as Hst. fold ms bs in Hst.
  destruct (str_staged_ok k Hk) as [_ Zs].
  assert (Zd : zlen (staged_bytes dbl_site dbl_msg) = 256) by reflexivity.
  assert (Ln : length ms = S N /\ length bs = S N).
  { subst ms bs. rewrite !app_length, !repeat_length. cbn [length]. lia. }
  assert (Zt : zlen (concat bs) = 2 ^ 20 - 256).
  { subst bs. rewrite concat_app, zlen_app, concat_repeat_zlen, Zd, ZN. cbn [concat]. rewrite app_nil_r, Zs, Zk. lia. }
  assert (Sat : staged_at [dbl_site; str_site] min 0 ms bs) by (split; [exact Hst|apply load_store_same]).
  assert (BM : mem_bytes min).
  { apply store_bytes; [intro; unfold is_byte; lia|]. apply Forall_concat.
    subst bs. apply Forall_app. split.
    - apply Forall_forall. intros b Hb. apply repeat_spec in Hb. subst b.
      apply all_bytes. vm_compute. reflexivity.
    - constructor; [|constructor]. unfold staged_bytes. cbn [str_site si_params].
      change (sm_ns (str_msg k)) with [k]. rewrite str_imgs by lia.
      repeat (apply Forall_app; split); try apply le_bytes_is_byte.
      apply Forall_forall. intros b Hb. apply repeat_spec in Hb. subst. unfold is_byte. lia. }
  assert (CK : call_ok c).
  { unfold call_ok, enc_ok, c, e. cbn [c_enc c_n c_tid e_mem e_base e_wp e_hi e_end]. splits; try lia. intro. unfold is_byte. lia. }
  destruct (encodeLogMsgs (c_enc c) min 0 (c_n c) (c_tid c) (c_np c) (firstn (c_known c) [dbl_site; str_site])) as [[e' read] kk] eqn:E.
  assert (X : e_wp e' - e_wp (c_enc c) <= DECODER_STORAGE).
  { refine (H [dbl_site; str_site] c ms bs min 0 e' read kk CK BM Sat _ _ _ E);
      unfold STAGING_BUFFER_SIZE, RELEASE_THRESHOLD; cbn [c c_n]; rewrite ?Zt; lia. }
  clearbody min. cbn [c c_enc c_n c_tid c_np c_known] in E, X.
  pose proof (encodeLogMsgs_spec [dbl_site; str_site] 2 ms bs min 0 (2 ^ 19) 3 false e e' read kk Sat BM (proj1 CK) ltac:(lia) ltac:(lia) E) as E2.
  clear E. rename E2 into E.
  change (e_space e) with (2 ^ 26) in E. change (e_wp e) with 0 in E, X. change (e_end e) with (2 ^ 26) in E.
  destruct E as [(E1 & _)|(n & ws & A0 & A1 & A2 & A3 & A4 & A5 & A6 & A7 & A8 & A9 & A10 & A11 & A12 & A13 & A14 & A15)]; [lia|].
  destruct (Nat.le_gt_cases n N) as [Hn|Hn].
  - rewrite A4 in *. subst bs. rewrite firstn_sum in A15, A13 by auto. rewrite Zd in A15, A13.
    destruct A15 as (x & b & N1 & N2 & N3); [lia|].
    assert (Hb : zlen b = 256 \/ (n = N /\ zlen b = k + 20)).
    { destruct (Nat.eq_dec n N) as [->|Ne].
      - right. split; auto. rewrite nth_error_app2, repeat_length, Nat.sub_diag in N2 by (rewrite repeat_length; lia).
        cbn [nth_error] in N2. assert (b = staged_bytes str_site (str_msg k)) by congruence. subst b. exact Zs.
      - left. apply nth_error_last_repeat in N2; [subst b; exact Zd|lia]. }
    assert (Hx : sm_id x < 2).
    { apply nth_error_In in N1. subst ms. apply in_app_or in N1. destruct N1 as [N1|[N1|[]]].
      - apply repeat_spec in N1. subst x. cbn. lia.
      - subst x. cbn. lia. }
    assert (SP : e_space e' = 2 ^ 26 - e_wp e') by (unfold e_space; lia).
    unfold stopped in N3. change (zlen (firstn 2 [dbl_site; str_site])) with 2 in N3.
    change (STAGING_BUFFER_SIZE / 2) with (2 ^ 19) in N3. clear - N3 Hb Hx SP A6 A13 ZN Zk Hn. destruct N3 as [N3|[N3|N3]]; lia.
  - rewrite firstn_all2 in A3 by lia. subst ms. apply (many_big N k ws 0) in A3; [|lia].
    unfold extent_bytes in A6. rewrite !zlen_app in A6.
    match goal with _ : e_wp e' = 0 + (zlen ?a + (zlen ?b + (zlen ?c' + _))) |- _ =>
      pose proof (zlen_nonneg _ a); pose proof (zlen_nonneg _ b); pose proof (zlen_nonneg _ c') end.
    unfold DECODER_STORAGE, STAGING_BUFFER_SIZE in X. clear - X A3 A6 H0 H1 H2 ZN Zk. lia.
Qed.
Print Assumptions C15_refuted_half_buffer.

(** The message of the other examples fits with room to spare. *)
Example C15_instance :
  let c := Call (Enc (fun _ => 9) 0 0 100 None 0) 26 20 false 1 in
  call_ok c /\ Forall (fun b => zlen b < STAGING_BUFFER_SIZE / 2) [staged_bytes demo_site demo_msg] /\
  e_wp (fst (fst (encodeLogMsgs (c_enc c) demo_min 500 26 20 false [demo_site]))) = 15.
Proof.
  intro c. split; [|split; [|vm_compute; reflexivity]].
  - subst c. unfold call_ok, enc_ok; cbn [c_enc c_n c_tid e_mem e_base e_wp e_hi e_end]; splits; try lia; intro; unfold is_byte; lia.
  - constructor; [|constructor]. apply Z.ltb_lt. vm_compute. reflexivity.
Qed.
