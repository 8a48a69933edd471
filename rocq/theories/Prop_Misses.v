(** C77: what the encoder counts and complains about when it meets statements it
    does not know yet. *)
From Verif Require Import Base BaseProofs Packer PackerProofs LogHeader Chars Fmt Args Printf ArgsProofs Prop_Args Encoder Wire EncoderProofs DecodeProofs Misses.
Ltac Zify.zify_post_hook ::= Z.div_mod_to_equations.

(** ** Specification, in terms of the encoder without counters (Encoder.v) *)

(** The messages a call looks at: those it encodes, and one more if it stops
    before the end of the staging buffer; [Some id] is one whose statement the
    dictionary does not have. *)
Definition looked_at (dict : list site) (min : mem) (from nbytes read k : Z) : list (option Z) :=
  repeat None (Z.to_nat k) ++
  (if read <? nbytes then [if ue_fmtId min (from + read) <? zlen dict then None else Some (ue_fmtId min (from + read))] else []).

(** ... over a history, with the number of the thread whose extent was begun last since the last swap. *)
Fixpoint history (e : enc) (last : option Z) (os : list eop) : enc * option Z * list (option Z) :=
  match os with
  | [] => (e, last, [])
  | ESwap b n :: r => history (fst (swapBuffer e b n)) None r
  | EEncode min from nbytes id np dict :: r =>
    let '(e1, read, k) := encodeLogMsgs e min from nbytes id np dict in
    let begun := 9 <=? e_space e in
    let '(e2, l, seen) := history e1 (if begun then Some id else last) r in
    (e2, l, (if begun then looked_at dict min from nbytes read k else []) ++ seen)
  end.

(** The unknown ones, and those since the last known one. *)
Definition missed (l : list (option Z)) : Z := zlen (filter (fun x => match x with Some _ => true | None => false end) l).
Fixpoint missed_since (run : Z) (l : list (option Z)) : Z :=
  match l with
  | [] => run
  | None :: r => missed_since 0 r
  | Some _ :: r => missed_since (run + 1) r
  end.

(** A complaint for every thousandth in a row, counted in 32 bits. *)
Fixpoint complaints (run : Z) (l : list (option Z)) : list Z :=
  match l with
  | [] => []
  | None :: r => complaints 0 r
  | Some id :: r => (if ((run + 1) mod 2 ^ 32) mod 1000 =? 0 then [id] else []) ++ complaints (run + 1) r
  end.

Definition missing_ids (cs : list complaint) : list Z := flat_map (fun c => match c with Missing id => [id] | TooLong _ _ => [] end) cs.

(** ** Proofs *)

Lemma entry_size_nonneg : forall m p, mem_bytes m -> 0 <= ue_entrySize m p.
Proof. intros m p H. unfold ue_entrySize. pose proof (le_val_bound (load m (p + 4) 4) (load_bytes 4 m (p + 4) H)). lia. Qed.

(** The loop without its counters. *)
Lemma loop_same : forall known cf fuel min from remaining last e s,
  let '(e', rem, k, _, _) := miss_loop known cf fuel min from remaining last e s in encode_loop known cf fuel min from remaining last e = (e', rem, k).
Proof.
  intros known cf. induction fuel as [|fuel IH]; intros min from remaining last e s; cbn [miss_loop encode_loop]; [reflexivity|].
  destruct (remaining <=? 0); [reflexivity|]. cbv zeta. destruct (negb (known (ue_fmtId min from))); [reflexivity|].
  destruct ((remaining <? ue_entrySize min from) && (ue_entrySize min from <? STAGING_BUFFER_SIZE / 2)); [reflexivity|].
  destruct (e_space e <? to_u 32 (to_u 32 (2 * ue_entrySize min from) + 16)); [reflexivity|].
  match goal with |- context [miss_loop known cf fuel ?a ?b ?c ?d ?f ?g] => specialize (IH a b c d f g); destruct (miss_loop known cf fuel a b c d f g) as [[[[e2 rem] k] s2] cs] end.
  rewrite IH. reflexivity.
Qed.

Lemma encode_same : forall e s min from nbytes id np dict,
  let '(e', read, k, _, _) := encode_noting e s min from nbytes id np dict in encodeLogMsgs e min from nbytes id np dict = (e', read, k).
Proof.
  intros. unfold encode_noting, encodeLogMsgs, encode_with. destruct (encodeBufferExtentStart e id np) as [e1|]; [|reflexivity].
  match goal with |- context [miss_loop ?a ?b ?c ?d ?f ?g ?h ?i ?j] => pose proof (loop_same a b c d f g h i j) as L; destruct (miss_loop a b c d f g h i j) as [[[[e2 rem] k] s2] cs] end.
  rewrite L. reflexivity.
Qed.

Lemma missed_app : forall a b, missed (a ++ b) = missed a + missed b.
Proof. intros. unfold missed. rewrite filter_app, zlen_app. reflexivity. Qed.

Lemma missed_nonneg : forall l, 0 <= missed l.
Proof. intro. unfold missed. apply zlen_nonneg. Qed.

Lemma since_app : forall a b run, missed_since run (a ++ b) = missed_since (missed_since run a) b.
Proof. induction a as [|[x|] a IH]; intros b run; cbn [app missed_since]; auto. Qed.

Lemma since_nonneg : forall l run, 0 <= run -> 0 <= missed_since run l.
Proof. induction l as [|[x|] l IH]; intros run H; cbn [missed_since]; auto; apply IH; lia. Qed.

Lemma complaints_app : forall a b run, complaints run (a ++ b) = complaints run a ++ complaints (missed_since run a) b.
Proof. induction a as [|[x|] a IH]; intros b run; cbn [app complaints missed_since]; auto. now rewrite IH, app_assoc. Qed.

(** A message more. *)
Lemma looked_cons : forall dict min from n rem size k, 0 <= k ->
  looked_at dict min from n (n - rem) (1 + k) = None :: looked_at dict min (from + size) (n - size) (n - size - rem) k.
Proof.
  intros. unfold looked_at. replace (Z.to_nat (1 + k)) with (S (Z.to_nat k)) by lia. cbn [repeat app]. do 2 f_equal.
  replace (from + size + (n - size - rem)) with (from + (n - rem)) by lia.
  destruct (n - rem <? n) eqn:A, (n - size - rem <? n - size) eqn:B; try reflexivity; lia.
Qed.

Lemma missing_long : forall (b : bool) id size cs, missing_ids ((if b then [TooLong id size] else []) ++ cs) = missing_ids cs.
Proof. intros [|] ? ? ?; reflexivity. Qed.

(** The loop with them.  An entry of size 0 is looked at until the fuel is used up. *)
Lemma loop_counts : forall dict cf fuel min from remaining last e s m run e' rem k s' cs, mem_bytes min ->
  (remaining <= Z.of_nat fuel \/ (ue_entrySize min from = 0 /\ (ue_fmtId min from <? zlen dict) = true /\ run = 0)) ->
  mi_miss s = m mod 2 ^ 32 -> mi_run s = run mod 2 ^ 32 ->
  miss_loop (fun id => id <? zlen dict) cf fuel min from remaining last e s = (e', rem, k, s', cs) ->
  let l := looked_at dict min from remaining (remaining - rem) k in
  0 <= k /\ mi_last s' = mi_last s /\ mi_miss s' = (m + missed l) mod 2 ^ 32 /\ mi_run s' = missed_since run l mod 2 ^ 32 /\
  missing_ids cs = complaints run l.
Proof.
  intros dict cf. induction fuel as [|fuel IH]; intros min from remaining last e s m run e' rem k s' cs HM HF Hm HS H; cbn [miss_loop] in H; cbv zeta.
  - injection H as <- <- <- <- <-. unfold looked_at. rewrite Z.sub_diag, Z.add_0_r. cbn [Z.to_nat repeat app].
    destruct (0 <? remaining) eqn:E0.
    + destruct HF as [HF|(HF & HK & ->)]; [lia|]. rewrite HK. unfold missed, zlen. cbn [filter length Z.of_nat missed_since complaints]. rewrite Z.add_0_r. splits; auto; lia.
    + unfold missed, zlen. cbn [filter length Z.of_nat missed_since complaints]. rewrite Z.add_0_r. splits; auto; lia.
  - destruct (remaining <=? 0) eqn:E0.
    { injection H as <- <- <- <- <-. unfold looked_at. rewrite Z.sub_diag. cbn [Z.to_nat repeat app].
      replace (0 <? remaining) with false by lia. unfold missed, zlen. cbn [filter length Z.of_nat missed_since complaints]. rewrite Z.add_0_r. splits; auto; lia. }
    destruct (ue_fmtId min from <? zlen dict) eqn:EK; cbn [negb] in H.
    2:{ injection H as <- <- <- <- <-. unfold looked_at. rewrite Z.sub_diag, Z.add_0_r. cbn [Z.to_nat repeat app].
        replace (0 <? remaining) with true by lia. rewrite EK. unfold missed, zlen. cbn [filter length Z.of_nat missed_since complaints mi_last mi_miss mi_run].
        unfold to_u. rewrite Hm, HS. rewrite (Zplus_mod_idemp_l m 1), (Zplus_mod_idemp_l run 1). splits; auto; try lia.
        rewrite app_nil_r. destruct (((run + 1) mod 2 ^ 32) mod 1000 =? 0); reflexivity. }
    assert (STOP : forall cs0, missing_ids cs0 = [] ->
      let l := looked_at dict min from remaining (remaining - remaining) 0 in
      0 <= 0 /\ mi_last (MStats (mi_last s) (mi_miss s) 0) = mi_last s /\ mi_miss (MStats (mi_last s) (mi_miss s) 0) = (m + missed l) mod 2 ^ 32 /\
      mi_run (MStats (mi_last s) (mi_miss s) 0) = missed_since run l mod 2 ^ 32 /\ missing_ids cs0 = complaints run l).
    { intros cs0 Hc. unfold looked_at. rewrite Z.sub_diag, Z.add_0_r. cbn [Z.to_nat repeat app]. replace (0 <? remaining) with true by lia. rewrite EK, Hc.
      unfold missed, zlen. cbn [filter length Z.of_nat missed_since complaints mi_last mi_miss mi_run]. rewrite Z.add_0_r. splits; auto; lia. }
    destruct ((remaining <? ue_entrySize min from) && (ue_entrySize min from <? STAGING_BUFFER_SIZE / 2)).
    { injection H as <- <- <- <- <-. exact (STOP [] eq_refl). }
    destruct (e_space e <? to_u 32 (to_u 32 (2 * ue_entrySize min from) + 16)).
    { injection H as <- <- <- <- <-. apply STOP. destruct (remaining <? ue_entrySize min from); reflexivity. }
    match type of H with context [miss_loop ?a cf fuel ?b ?c ?d ?f ?g ?h] => destruct (miss_loop a cf fuel b c d f g h) as [[[[e2 rem2] k2] s2] cs2] eqn:EL end.
    remember (1 + k2) as k1 eqn:EK1 in H. injection H as <- <- <- <- <-. rewrite EK1. clear k1 EK1. pose proof (entry_size_nonneg min from HM) as Hs.
    apply (IH _ _ _ _ _ _ m 0) in EL; auto.
    2:{ destruct (Z.eq_dec (ue_entrySize min from) 0) as [Z0|NZ].
        - right. rewrite Z0, Z.add_0_r. auto.
        - destruct HF as [HF|(HF & _)]; [left; lia|lia]. }
    cbv zeta in EL. destruct EL as (K & A & B & C & D). rewrite (looked_cons dict min from remaining rem2 (ue_entrySize min from) k2 K), missing_long.
    cbn [missed_since complaints]. change (missed (None :: ?x)) with (missed x). cbn [mi_last] in A. splits; auto; lia.
Qed.

Lemma start_space : forall e id np, encodeBufferExtentStart e id np = None <-> (9 <=? e_space e) = false.
Proof.
  intros. unfold encodeBufferExtentStart. cbv zeta. destruct (e_space e <? 9) eqn:E; split; intro H; try reflexivity; try lia.
  exfalso. destruct (id <? 16); discriminate H.
Qed.

Lemma call_counts : forall e s min from nbytes id np dict m run e' read k s' cs, mem_bytes min ->
  mi_miss s = m mod 2 ^ 32 -> mi_run s = run mod 2 ^ 32 ->
  encode_noting e s min from nbytes id np dict = (e', read, k, s', cs) ->
  let l := if 9 <=? e_space e then looked_at dict min from nbytes read k else [] in
  mi_last s' = (if 9 <=? e_space e then id else mi_last s) /\ mi_miss s' = (m + missed l) mod 2 ^ 32 /\ mi_run s' = missed_since run l mod 2 ^ 32 /\
  missing_ids cs = complaints run l.
Proof.
  intros e s min from nbytes id np dict m run e' read k s' cs HM Hm HS H. unfold encode_noting in H. pose proof (start_space e id np) as SP.
  destruct (encodeBufferExtentStart e id np) as [e1|] eqn:ES.
  - replace (9 <=? e_space e) with true by (destruct (9 <=? e_space e); [reflexivity|destruct SP as [_ SP]; discriminate (SP eq_refl)]).
    match type of H with context [miss_loop ?a ?b ?c ?d ?f ?g ?h ?i ?j] => destruct (miss_loop a b c d f g h i j) as [[[[e2 rem] k2] s2] cs2] eqn:EL end.
    injection H as <- <- <- <- <-. apply (loop_counts dict _ _ _ _ _ _ _ _ m run) in EL; auto; [|left; lia].
    cbv zeta in EL. destruct EL as (_ & A & B & C & D). cbn [mi_last] in A. cbv zeta. splits; auto.
  - destruct SP as [SP _]. rewrite (SP eq_refl). injection H as <- <- <- <- <-. unfold missed, zlen. cbn [filter length Z.of_nat missed_since complaints]. rewrite Z.add_0_r.
    splits; auto.
Qed.

Definition eop_ok (o : eop) : Prop := match o with EEncode min _ _ _ _ _ => mem_bytes min | ESwap _ _ => True end.

Lemma history_counts : forall os e s last m run e' s' cs, Forall eop_ok os ->
  mi_last s = match last with Some i => i | None => 2 ^ 32 - 1 end -> mi_miss s = m mod 2 ^ 32 -> mi_run s = run mod 2 ^ 32 ->
  eops_run (e, s) os = (e', s', cs) ->
  exists last' l, history e last os = (e', last', l) /\
  mi_last s' = match last' with Some i => i | None => 2 ^ 32 - 1 end /\ mi_miss s' = (m + missed l) mod 2 ^ 32 /\ mi_run s' = missed_since run l mod 2 ^ 32 /\
  missing_ids cs = complaints run l.
Proof.
  induction os as [|o os IH]; intros e s last m run e' s' cs HO HL Hm HS H; cbn [eops_run history] in *.
  - injection H as <- <- <-. exists last, []. unfold missed, zlen. cbn [filter length Z.of_nat missed_since complaints]. rewrite Z.add_0_r. splits; auto.
  - inversion_clear HO as [|? ? O1 O2]. destruct o as [min from nbytes id np dict|b n]; cbn [eop_step] in H.
    + pose proof (encode_same e s min from nbytes id np dict) as ES. cbn [eop_ok] in O1.
      destruct (encode_noting e s min from nbytes id np dict) as [[[[e1 read] k] s1] cs1] eqn:EN.
      apply (call_counts _ _ _ _ _ _ _ _ m run) in EN; auto. cbv zeta in EN. rewrite ES. destruct EN as (A & B & C & D).
      destruct (eops_run (e1, s1) os) as [[e2 s2] cs2] eqn:ER. injection H as <- <- <-.
      set (l1 := if 9 <=? e_space e then looked_at dict min from nbytes read k else []) in *.
      apply (IH _ _ (if 9 <=? e_space e then Some id else last) (m + missed l1) (missed_since run l1)) in ER; auto.
      2:{ rewrite A. destruct (9 <=? e_space e); auto. }
      destruct ER as (last' & l & HH & A2 & B2 & C2 & D2). rewrite HH. exists last', (l1 ++ l). splits; auto.
      * rewrite B2, missed_app. f_equal. lia.
      * now rewrite C2, since_app.
      * unfold missing_ids in *. rewrite flat_map_app, D, D2. symmetry. apply complaints_app.
    + destruct (eops_run (fst (swapBuffer e b n), swap_noting s) os) as [[e2 s2] cs2] eqn:ER. injection H as <- <- <-.
      apply (IH _ _ None m run) in ER; auto.
Qed.

(** ** C77 *)

(** The counters do not change what is encoded; at any time they are, modulo 2^32,
    the number of messages met whose statement was unknown, and of those met
    since the last known one; the thread number is that of the last extent since
    the swap; and the error is printed for every thousandth in a row. *)
Theorem C77_missing_statements_are_counted : forall e os e' s' cs, Forall eop_ok os -> eops_run (e, new_mstats) os = (e', s', cs) ->
  exists last l, history e None os = (e', last, l) /\
    mi_last s' = match last with Some i => i | None => 2 ^ 32 - 1 end /\
    mi_miss s' = missed l mod 2 ^ 32 /\ mi_run s' = missed_since 0 l mod 2 ^ 32 /\ missing_ids cs = complaints 0 l.
Proof.
  intros e os e' s' cs HO H. destruct (history_counts os e new_mstats None 0 0 e' s' cs HO eq_refl eq_refl eq_refl H) as (last & l & A & B & C & D & E).
  exists last, l. rewrite Z.add_0_l in C. splits; auto.
Qed.
Print Assumptions C77_missing_statements_are_counted.

(** A complaint about length: only for a known statement whose message is longer
    than what remains to be read, and than half a staging buffer. *)
Lemma long_only : forall known cf fuel min from remaining last e s e' rem k s' cs id size,
  miss_loop known cf fuel min from remaining last e s = (e', rem, k, s', cs) -> In (TooLong id size) cs ->
  known id = true /\ STAGING_BUFFER_SIZE / 2 <= size /\ exists at_, id = ue_fmtId min at_ /\ size = ue_entrySize min at_ /\ from + remaining - at_ < size.
Proof.
  intros known cf. induction fuel as [|fuel IH]; intros min from remaining last e s e' rem k s' cs id size H HI; cbn [miss_loop] in H.
  { injection H as <- <- <- <- <-. destruct HI. }
  destruct (remaining <=? 0). { injection H as <- <- <- <- <-. destruct HI. }
  destruct (known (ue_fmtId min from)) eqn:EK; cbn [negb] in H.
  2:{ injection H as <- <- <- <- <-. destruct (to_u 32 (mi_run s + 1) mod 1000 =? 0); [destruct HI as [HI|[]]; discriminate|destruct HI]. }
  destruct ((remaining <? ue_entrySize min from) && (ue_entrySize min from <? STAGING_BUFFER_SIZE / 2)) eqn:EB.
  { injection H as <- <- <- <- <-. destruct HI. }
  assert (HERE : In (TooLong id size) (if remaining <? ue_entrySize min from then [TooLong (ue_fmtId min from) (ue_entrySize min from)] else []) ->
     known id = true /\ STAGING_BUFFER_SIZE / 2 <= size /\ exists at_, id = ue_fmtId min at_ /\ size = ue_entrySize min at_ /\ from + remaining - at_ < size).
  { destruct (remaining <? ue_entrySize min from) eqn:ER; [|intros []]. cbn [andb] in EB. intros [HH|[]]. injection HH as <- <-. splits; auto; [lia|].
    exists from. splits; auto; lia. }
  destruct (e_space e <? to_u 32 (to_u 32 (2 * ue_entrySize min from) + 16)).
  { injection H as <- <- <- <- <-. auto. }
  match type of H with context [miss_loop known cf fuel ?b ?c ?d ?f ?g ?h] => destruct (miss_loop known cf fuel b c d f g h) as [[[[e2 rem2] k2] s2] cs2] eqn:EL end.
  injection H as <- <- <- <- <-. apply in_app_or in HI. destruct HI as [HI|HI]; [auto|].
  destruct (IH _ _ _ _ _ _ _ _ _ _ _ id size EL HI) as (A & B & at_ & C & D & E). splits; auto. exists at_. splits; auto; lia.
Qed.

Theorem C77_long_messages_are_reported : forall e s min from nbytes bid np dict e' read k s' cs id size,
  encode_noting e s min from nbytes bid np dict = (e', read, k, s', cs) -> In (TooLong id size) cs ->
  id < zlen dict /\ STAGING_BUFFER_SIZE / 2 <= size /\ exists at_, id = ue_fmtId min at_ /\ size = ue_entrySize min at_ /\ from + nbytes < at_ + size.
Proof.
  intros e s min from nbytes bid np dict e' read k s' cs id size H HI. unfold encode_noting in H. destruct (encodeBufferExtentStart e bid np) as [e1|].
  - match type of H with context [miss_loop ?a ?b ?c ?d ?f ?g ?h ?i ?j] => destruct (miss_loop a b c d f g h i j) as [[[[e2 rem] k2] s2] cs2] eqn:EL end.
    injection H as <- <- <- <- <-. destruct (long_only _ _ _ _ _ _ _ _ _ _ _ _ _ _ id size EL HI) as (A & B & at_ & C & D & E). splits; auto; [lia|].
    exists at_. splits; auto; lia.
  - injection H as <- <- <- <- <-. destruct HI.
Qed.
Print Assumptions C77_long_messages_are_reported.

(** ... and never silently: a call that reads more than it was given has said so. *)
Lemma long_loop : forall known cf fuel min from remaining last e s e' rem k s' cs,
  miss_loop known cf fuel min from remaining last e s = (e', rem, k, s', cs) -> 0 <= remaining -> rem < 0 -> exists id size, In (TooLong id size) cs.
Proof.
  intros known cf. induction fuel as [|fuel IH]; intros min from remaining last e s e' rem k s' cs H H0 HR; cbn [miss_loop] in H.
  { injection H as <- <- <- <- <-. lia. }
  destruct (remaining <=? 0). { injection H as <- <- <- <- <-. lia. }
  destruct (negb (known (ue_fmtId min from))). { injection H as <- <- <- <- <-. lia. }
  destruct ((remaining <? ue_entrySize min from) && (ue_entrySize min from <? STAGING_BUFFER_SIZE / 2)). { injection H as <- <- <- <- <-. lia. }
  destruct (e_space e <? to_u 32 (to_u 32 (2 * ue_entrySize min from) + 16)). { injection H as <- <- <- <- <-. lia. }
  match type of H with context [miss_loop known cf fuel ?b ?c ?d ?f ?g ?h] => destruct (miss_loop known cf fuel b c d f g h) as [[[[e2 rem2] k2] s2] cs2] eqn:EL end.
  injection H as <- <- _ <- <-. destruct (remaining <? ue_entrySize min from) eqn:ER.
  - exists (ue_fmtId min from), (ue_entrySize min from). left. reflexivity.
  - destruct (IH _ _ _ _ _ _ _ _ _ _ _ EL ltac:(lia) HR) as (id & size & HI). exists id, size. exact HI.
Qed.

Theorem C77_nothing_longer_is_read_silently : forall e s min from nbytes bid np dict e' read k s' cs,
  encode_noting e s min from nbytes bid np dict = (e', read, k, s', cs) -> 0 <= nbytes -> nbytes < read -> exists id size, In (TooLong id size) cs.
Proof.
  intros e s min from nbytes bid np dict e' read k s' cs H H0 HR. unfold encode_noting in H. destruct (encodeBufferExtentStart e bid np) as [e1|].
  - match type of H with context [miss_loop ?a ?b ?c ?d ?f ?g ?h ?i ?j] => destruct (miss_loop a b c d f g h i j) as [[[[e2 rem] k2] s2] cs2] eqn:EL end.
    injection H as <- <- <- <- <-. apply (long_loop _ _ _ _ _ _ _ _ _ _ _ _ _ _ EL); lia.
  - injection H as <- <- <- <- <-. lia.
Qed.
Print Assumptions C77_nothing_longer_is_read_silently.

(** Read off: below 2^32 in a row, the complaints are those for the thousandth,
    the two thousandth and so on. *)
Lemma complaints_every_1000th : forall n run id, 0 <= run -> run + Z.of_nat n < 2 ^ 32 ->
  complaints run (repeat (Some id) n) = repeat id (Z.to_nat ((run + Z.of_nat n) / 1000 - run / 1000)).
Proof.
  induction n as [|n IH]; intros run id H0 H1; cbn [repeat complaints].
  - replace (run + Z.of_nat 0) with run by lia. rewrite Z.sub_diag. reflexivity.
  - rewrite IH by lia. rewrite (Z.mod_small (run + 1)) by lia. replace (run + Z.of_nat (S n)) with (run + 1 + Z.of_nat n) by lia.
    destruct ((run + 1) mod 1000 =? 0) eqn:E.
    + replace (Z.to_nat ((run + 1 + Z.of_nat n) / 1000 - run / 1000)) with (S (Z.to_nat ((run + 1 + Z.of_nat n) / 1000 - (run + 1) / 1000))) by lia. reflexivity.
    + replace ((run + 1) / 1000) with (run / 1000) by lia. reflexivity.
Qed.

(** ** An instance: a known statement 0 and an unknown one 3 in the same buffer,
    then the unknown one again, until no extent fits, and after a swap. *)
Definition entry (id size ts : Z) : list Z := le_bytes 4 id ++ le_bytes 4 size ++ le_bytes 8 ts.
Definition two_entries : mem := store (fun _ => 0) 500 (entry 0 16 100 ++ entry 3 16 107).
Definition plain : site := Site 0 1 [] [] 0 [] [].
Definition eops_demo (n : nat) : list eop :=
  EEncode two_entries 500 32 7 true [plain] ::
  repeat (EEncode two_entries 516 16 9 false [plain]) n ++ [ESwap 1000 50; EEncode two_entries 516 16 20 true [plain]].

Lemma two_entries_bytes : mem_bytes two_entries.
Proof. unfold two_entries. apply store_bytes; [intro; unfold is_byte; lia|]. unfold entry. repeat (apply Forall_app; split); apply le_bytes_is_byte. Qed.

Example C77_instance : Forall eop_ok (eops_demo 2) /\
  let '(e, s, cs) := eops_run (Enc (fun _ => 0) 0 0 30 None 0, new_mstats) (eops_demo 2) in
  (s, cs) = (MStats 20 3 3, []) /\
  history (Enc (fun _ => 0) 0 0 30 None 0) None (eops_demo 2) = (e, Some 20, [None; Some 3; Some 3; Some 3]).
Proof.
  split; [|vm_compute; split; reflexivity]. unfold eops_demo. cbn [repeat app].
  repeat (constructor; [first [exact two_entries_bytes | exact I]|]). constructor.
Qed.

(** At the thousandth in a row the error is printed; a known one starts anew. *)
Example C77_complains :
  let '(e1, r1, k1, s1, cs1) := encode_noting (Enc (fun _ => 0) 0 0 100 None 0) (MStats 4 5000 999) two_entries 516 16 7 true [plain] in
  let '(e2, r2, k2, s2, cs2) := encode_noting e1 s1 two_entries 500 32 7 true [plain] in
  (s1, cs1, r1, k1) = (MStats 7 5001 1000, [Missing 3], 0, 0) /\ (s2, cs2, r2, k2) = (MStats 7 5002 1, [], 16, 1).
Proof. vm_compute. split; reflexivity. Qed.

(** A message longer than what is there. *)
Example C77_long_instance :
  let m := store (fun _ => 0) 500 (entry 0 (STAGING_BUFFER_SIZE / 2) 100) in
  let '(_, read, k, s, cs) := encode_noting (Enc (fun _ => 0) 0 0 (2 ^ 21) None 0) new_mstats m 500 32 7 true [plain] in
  (read, k, s, cs) = (STAGING_BUFFER_SIZE / 2, 1, MStats 7 0 0, [TooLong 0 (STAGING_BUFFER_SIZE / 2)]).
Proof. vm_compute. reflexivity. Qed.
