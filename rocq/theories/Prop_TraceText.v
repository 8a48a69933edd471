(** C80: the text of a time trace. *)
From Coq Require Import QArith Qabs Qround Lqa Permutation Sorted.
From Verif Require Import Base BaseProofs RingProofs DecodeProofs Chars Fmt Preproc PreprocProofs TimeFmt TimeProofs Prop_TimeOrder TimeTrace Prop_TimeTrace TraceText.
Open Scope Z_scope.
Ltac Zify.zify_post_hook ::= Z.div_mod_to_equations.

(** ** Specification *)

(** [txt] is a number with one decimal, right-aligned in [w] columns (longer if
    need be), negative if [neg]. *)
Definition tells (w : nat) (txt : list Z) (neg : bool) (v : Q) : Prop :=
  exists sp ds d, txt = repeat 32 sp ++ (if neg then [45] else []) ++ ds ++ [46; d] /\
    ds <> [] /\ Forall is_digit (ds ++ [d]) /\ (w <= length txt)%nat /\ (sp = 0 \/ length txt = w)%nat /\
    (v == (if neg then -1 else 1) * inject_Z (dec_val (ds ++ [d])) / 10)%Q.

(** A number of cycles in nanoseconds. *)
Definition nanos (cps : Q) (c : Z) : Q := (inject_Z c * 1000000000 / cps)%Q.
(** Up to half a unit of the last digit, and the precision of doubles. *)
Definition close (v x slack : Q) : Prop := (Qabs (v - x) <= (1 # 20) + slack * (1 # (2 ^ 50)))%Q.

(** The message, the first 999 characters of a longer one. *)
Definition kept (whole m : list Z) : Prop :=
  exists cut, whole = m ++ cut /\ (length m <= 999)%nat /\ (cut <> [] -> length m = 999%nat).

(** A line: the time since [start], the time since [prev], the message. *)
Definition line_says (cps : Q) (msg : event -> list Z) (start prev : Z) (e : event) (ordered : Prop) (line : list Z) : Prop :=
  exists T D n1 n2 t d m, line = T ++ chars " ns (+" ++ D ++ chars " ns): " ++ m /\ kept (msg e) m /\
    tells 8 T n1 t /\ tells 6 D n2 d /\
    close t (nanos cps (ev_time e - start)) (Qabs (nanos cps (ev_time e - start))) /\
    close d (nanos cps (ev_time e - prev)) (Qabs (nanos cps (ev_time e - start)) + Qabs (nanos cps (prev - start))) /\
    (ordered -> n1 = false /\ n2 = false).

Inductive lines_say (cps : Q) (msg : event -> list Z) (start : Z) (ordered : Prop) : Z -> list event -> list (list Z) -> Prop :=
| says_nil : forall prev, lines_say cps msg start ordered prev [] []
| says_cons : forall prev e es l ls, line_says cps msg start prev e ordered l -> lines_say cps msg start ordered (ev_time e) es ls ->
    lines_say cps msg start ordered prev (e :: es) (l :: ls).

Fixpoint joined (ls : list (list Z)) : list Z :=
  match ls with [] => [] | [l] => l | l :: r => l ++ [10] ++ joined r end.
Definition ended (ls : list (list Z)) : list Z := concat (map (fun l => l ++ [10]) ls).

(** A trace has a line for each event C56 speaks of; the string has newlines
    between the lines, the file behind each. *)
Definition C80_stmt : Prop := forall hs cps msg, Forall (Forall op_ok) hs -> (0 < cps)%Q ->
  let logs := map (fun h => recent (log h)) hs in
  let start := covered logs in
  Forall (Forall (fun e => Z.abs (ev_time e - start) < 2 ^ 63)) logs ->
  exists out lines, printInternal (map run hs) = (start, Some out) /\ shuffle (map (drop_old start) logs) out /\
    lines_say cps msg start (Forall in_order logs) start out lines /\
    trace_string cps msg (map run hs) = Some (match lines with [] => chars "No time trace events to print" | _ => joined lines end) /\
    trace_file cps msg (map run hs) = Some (match lines with [] => chars "No time trace events to print" | _ => ended lines end).

(** ** Numbers *)
Definition is_neg (x : Q) : bool := if Qlt_le_dec x 0 then true else false.

Lemma fixed1_tells : forall w x, exists v, tells w (fixed1 w x) (is_neg x) v /\ (Qabs (v - x) <= 1 # 20)%Q.
Proof.
  intros w x. unfold fixed1, is_neg. set (t := rhe (10 * Qabs x)).
  assert (T0 : 0 <= t). { apply rhe_ge. pose proof (Qabs_nonneg x). change (inject_Z 0) with 0%Q. lra. }
  pose proof (rhe_near (10 * Qabs x)) as NE. fold t in NE.
  destruct (dec_str_spec (t / 10) ltac:(lia)) as (D1 & D2 & D3).
  assert (DV : dec_val (dec_str (t / 10) ++ [48 + t mod 10]) = t).
  { unfold dec_val in *. rewrite fold_left_app, D3. cbn [fold_left]. lia. }
  assert (DD : Forall is_digit (dec_str (t / 10) ++ [48 + t mod 10])).
  { apply Forall_app. split; [exact D2|]. repeat constructor; unfold is_digit; lia. }
  assert (AL : forall body : list Z, (w <= length (repeat 32%Z (w - length body) ++ body))%nat /\
    ((w - length body)%nat = 0%nat \/ length (repeat 32%Z (w - length body) ++ body) = w)).
  { intro body. rewrite app_length, repeat_length. lia. }
  apply Qabs_Qle_condition in NE. destruct (Qlt_le_dec x 0) as [N|N].
  - rewrite Qabs_neg in NE by lra. exists (-1 * inject_Z t / 10)%Q. split.
    + exists (w - length (45 :: dec_str (t / 10)%Z ++ [46; 48 + t mod 10])%Z)%nat, (dec_str (t / 10)), (48 + t mod 10).
      split; [reflexivity|]. split; [exact D1|]. split; [exact DD|]. split; [apply AL|]. split; [apply AL|]. rewrite DV. reflexivity.
    + apply Qabs_Qle_condition. unfold Qdiv. change (/ 10)%Q with (1 # 10)%Q. split; lra.
  - rewrite Qabs_pos in NE by lra. exists (1 * inject_Z t / 10)%Q. split.
    + exists (w - length (dec_str (t / 10) ++ [46; 48 + t mod 10])%Z)%nat, (dec_str (t / 10)), (48 + t mod 10).
      split; [reflexivity|]. split; [exact D1|]. split; [exact DD|]. split; [apply AL|]. split; [apply AL|]. rewrite DV. reflexivity.
    + apply Qabs_Qle_condition. unfold Qdiv. change (/ 10)%Q with (1 # 10)%Q. split; lra.
Qed.

Lemma signed_diff : forall x, Z.abs x < 2 ^ 63 -> to_s 64 (to_u 64 x) = x.
Proof. intros x H. unfold to_s, to_u. change (2 ^ 64) with (2 * 2 ^ 63). change (2 ^ (64 - 1)) with (2 ^ 63). destruct (_ <? _) eqn:E; lia. Qed.

Open Scope Q_scope.

Lemma abs_mult_pos : forall a b, 0 <= b -> Qabs (a * b) == Qabs a * b.
Proof. intros a b B. rewrite Qabs_Qmult. now rewrite (Qabs_pos b B). Qed.

(** A rounding of something that is off by [k] units already. *)
Lemma rnd_again : forall x y k, 0 <= k -> Qabs (y - x) <= Qabs x * k -> k <= 8 * eps -> Qabs (rnd y - x) <= Qabs x * (k + (1 + 8 * eps) * eps).
Proof.
  intros x y k K H K8. pose proof (rnd_err y) as E. pose proof (Qabs_nonneg x) as X0.
  assert (Y : Qabs y <= Qabs x * (1 + k)).
  { setoid_replace y with (x + (y - x)) at 1 by ring. eapply Qle_trans; [apply Qabs_triangle|]. lra. }
  setoid_replace (rnd y - x) with ((rnd y - y) + (y - x)) by ring. eapply Qle_trans; [apply Qabs_triangle|].
  assert (Qabs y * eps <= Qabs x * (1 + 8 * eps) * eps).
  { apply Qmult_le_compat_r; [|unfold eps; discriminate]. eapply Qle_trans; [exact Y|]. rewrite (Qmult_comm (Qabs x)), (Qmult_comm (Qabs x)). apply Qmult_le_compat_r; [lra|exact X0]. }
  lra.
Qed.

Lemma rel_scale : forall x y k c, 0 <= c -> Qabs (y - x) <= Qabs x * k -> Qabs (y * c - x * c) <= Qabs (x * c) * k.
Proof.
  intros x y k c C H. setoid_replace (y * c - x * c) with ((y - x) * c) by ring. rewrite !abs_mult_pos by exact C.
  setoid_replace (Qabs x * c * k) with (Qabs x * k * c) by ring. now apply Qmult_le_compat_r.
Qed.

Lemma ns_close : forall cps start e, 0 < cps -> (Z.abs (ev_time e - start) < 2 ^ 63)%Z ->
  Qabs (ns_of cps start e - nanos cps (ev_time e - start)) <= Qabs (nanos cps (ev_time e - start)) * (4 * eps).
Proof.
  intros cps start e C L. unfold ns_of, toSeconds, nanos. rewrite signed_diff by exact L. set (i := inject_Z (ev_time e - start)).
  assert (IC : 0 <= / cps) by (apply Qlt_le_weak, Qinv_lt_0_compat, C). unfold Qdiv.
  pose proof (rnd_err i) as E1. apply (rel_scale _ _ _ (/ cps) IC) in E1.
  apply rnd_again in E1; [|unfold eps; discriminate|unfold eps; discriminate].
  apply (rel_scale _ _ _ 1000000000 ltac:(discriminate)) in E1.
  apply rnd_again in E1; [|vm_compute; discriminate|vm_compute; discriminate].
  setoid_replace (i * 1000000000 * / cps) with (i * / cps * 1000000000) by ring.
  eapply Qle_trans; [exact E1|]. rewrite !(Qmult_comm (Qabs _)). apply Qmult_le_compat_r; [vm_compute; discriminate|apply Qabs_nonneg].
Qed.

Lemma ns_mono : forall cps start a b, 0 < cps -> (Z.abs (ev_time a - start) < 2 ^ 63)%Z -> (Z.abs (ev_time b - start) < 2 ^ 63)%Z ->
  (ev_time a <= ev_time b)%Z -> ns_of cps start a <= ns_of cps start b.
Proof.
  intros cps start a b C LA LB H. unfold ns_of, toSeconds. rewrite !signed_diff by assumption.
  assert (IC : 0 <= / cps) by (apply Qlt_le_weak, Qinv_lt_0_compat, C).
  apply rnd_mono. apply Qmult_le_compat_r; [|discriminate]. apply rnd_mono. unfold Qdiv. apply Qmult_le_compat_r; [|exact IC]. apply rnd_mono. apply iz_le. lia.
Qed.

Lemma ns_pos : forall cps start a, 0 < cps -> (Z.abs (ev_time a - start) < 2 ^ 63)%Z -> (start <= ev_time a)%Z -> 0 <= ns_of cps start a.
Proof.
  intros cps start a C LA H. unfold ns_of, toSeconds. rewrite signed_diff by assumption.
  assert (IC : 0 <= / cps) by (apply Qlt_le_weak, Qinv_lt_0_compat, C).
  apply rnd_pos. apply Qmult_le_0_compat; [|discriminate]. apply rnd_pos. unfold Qdiv. apply Qmult_le_0_compat; [|exact IC]. apply rnd_pos. change 0 with (inject_Z 0). apply iz_le. lia.
Qed.

Lemma is_neg_pos : forall x, 0 <= x -> is_neg x = false.
Proof. intros x H. unfold is_neg. destruct (Qlt_le_dec x 0); [lra|reflexivity]. Qed.

(** ** A line *)
Lemma time_error : forall ep x ns t, 0 < ep -> Qabs (ns - x) <= Qabs x * (4 * ep) -> Qabs (t - ns) <= 1 # 20 ->
  Qabs (t - x) <= (1 # 20) + Qabs x * (8 * ep).
Proof.
  intros ep x ns t EP N T. pose proof (Qabs_nonneg x) as X0.
  setoid_replace (t - x) with ((t - ns) + (ns - x)) by ring. eapply Qle_trans; [apply Qabs_triangle|].
  assert (Qabs x * (4 * ep) <= Qabs x * (8 * ep)). { rewrite !(Qmult_comm (Qabs _)). apply Qmult_le_compat_r; lra. } lra.
Qed.

Lemma diff_error : forall ep x p ns pns r d, 0 < ep -> ep < 1 # 100 -> Qabs (ns - x) <= Qabs x * (4 * ep) -> Qabs (pns - p) <= Qabs p * (4 * ep) ->
  Qabs (r - (ns - pns)) <= Qabs (ns - pns) * ep -> Qabs (d - r) <= 1 # 20 ->
  Qabs (d - (x - p)) <= (1 # 20) + (Qabs x + Qabs p) * (8 * ep).
Proof.
  intros ep x p ns pns r d EP ES N P R D. pose proof (Qabs_nonneg x) as X0. pose proof (Qabs_nonneg p) as P0.
  assert (B1 : Qabs ((ns - pns) - (x - p)) <= (Qabs x + Qabs p) * (4 * ep)).
  { setoid_replace ((ns - pns) - (x - p)) with ((ns - x) + - (pns - p)) by ring. eapply Qle_trans; [apply Qabs_triangle|]. rewrite Qabs_opp. lra. }
  assert (B2 : Qabs (ns - pns) <= (Qabs x + Qabs p) * 2).
  { setoid_replace (ns - pns) with (((ns - pns) - (x - p)) + (x + - p)) by ring. eapply Qle_trans; [apply Qabs_triangle|].
    pose proof (Qabs_triangle x (- p)) as TR. rewrite Qabs_opp in TR.
    assert ((Qabs x + Qabs p) * (4 * ep) <= (Qabs x + Qabs p) * 1) by (rewrite !(Qmult_comm (Qabs x + Qabs p)); apply Qmult_le_compat_r; lra). lra. }
  assert (B3 : Qabs (ns - pns) * ep <= (Qabs x + Qabs p) * 2 * ep) by (apply Qmult_le_compat_r; lra).
  setoid_replace (d - (x - p)) with ((d - r) + ((r - (ns - pns)) + ((ns - pns) - (x - p)))) by ring.
  eapply Qle_trans; [apply Qabs_triangle|]. pose proof (Qabs_triangle (r - (ns - pns)) ((ns - pns) - (x - p))) as TR.
  assert ((Qabs x + Qabs p) * (6 * ep) <= (Qabs x + Qabs p) * (8 * ep)) by (rewrite !(Qmult_comm (Qabs x + Qabs p)); apply Qmult_le_compat_r; lra). lra.
Qed.

Lemma nanos_minus : forall cps a b c, 0 < cps -> nanos cps (a - b) == nanos cps (a - c) - nanos cps (b - c).
Proof.
  intros cps a b c C. unfold nanos. replace (a - b)%Z with ((a - c) + - (b - c))%Z by lia. rewrite inject_Z_plus, inject_Z_opp. field. lra.
Qed.

Lemma close_eps : forall v x s, Qabs (v - x) <= (1 # 20) + s * (8 * eps) -> close v x s.
Proof. intros v x s H. unfold close. assert (E : (1 # 2 ^ 50) == 8 * eps) by reflexivity. rewrite E. exact H. Qed.

Lemma cut_kept : forall msg e, kept (msg e) (cut_message msg e).
Proof.
  intros msg e. unfold cut_message. exists (skipn 999 (msg e)). split; [now rewrite firstn_skipn|]. rewrite firstn_length. split; [lia|].
  intro H. destruct (Nat.le_gt_cases (length (msg e)) 999) as [L|L]; [now rewrite skipn_all2 in H by exact L|lia].
Qed.

Lemma line_ok : forall cps msg start prev pns e (ordered : Prop), 0 < cps -> (Z.abs (ev_time e - start) < 2 ^ 63)%Z ->
  Qabs (pns - nanos cps (prev - start)) <= Qabs (nanos cps (prev - start)) * (4 * eps) ->
  (ordered -> 0 <= ns_of cps start e /\ pns <= ns_of cps start e) ->
  line_says cps msg start prev e ordered (trace_head (ns_of cps start e) pns ++ cut_message msg e).
Proof.
  intros cps msg start prev pns e ordered C L P O.
  pose proof (ns_close cps start e C L) as N. set (ns := ns_of cps start e) in *. clearbody ns.
  destruct (fixed1_tells 8 ns) as (t & T1 & T2). pose proof (rnd_err (ns - pns)) as R. pose proof (rnd_pos (ns - pns)) as RP.
  unfold trace_head. set (r := rnd (ns - pns)) in *. clearbody r. destruct (fixed1_tells 6 r) as (d & D1 & D2).
  exists (fixed1 8 ns), (fixed1 6 r), (is_neg ns), (is_neg r), t, d, (cut_message msg e).
  split. { now rewrite <- !app_assoc. } split; [apply cut_kept|].
  split; [exact T1|]. split; [exact D1|]. split; [|split].
  - apply close_eps. apply (time_error eps _ ns); [reflexivity|exact N|exact T2].
  - apply close_eps. rewrite (nanos_minus cps _ _ start C). apply (diff_error eps _ _ ns pns r); [reflexivity|reflexivity|exact N|exact P|exact R|exact D2].
  - intro OO. destruct (O OO) as [O1 O2]. split; apply is_neg_pos; [exact O1|]. apply RP. lra.
Qed.

Open Scope Z_scope.

(** ** All lines *)
Fixpoint line_list (ns : event -> Q) (line : Q -> Q -> event -> list Z) (prev : Q) (es : list event) : list (list Z) :=
  match es with
  | [] => []
  | e :: r => line (ns e) prev e :: line_list ns line (ns e) r
  end.

Lemma lines_ok : forall cps msg start, (0 < cps)%Q -> forall (ordered : Prop) es prev pns,
  Forall (fun e => Z.abs (ev_time e - start) < 2 ^ 63) es ->
  (Qabs (pns - nanos cps (prev - start)) <= Qabs (nanos cps (prev - start)) * (4 * eps))%Q ->
  (ordered -> in_order es /\ Forall (fun e => start <= ev_time e) es /\ Forall (fun e => (pns <= ns_of cps start e)%Q) es) ->
  lines_say cps msg start ordered prev es (line_list (ns_of cps start) (trace_line msg) pns es).
Proof.
  intros cps msg start C ordered. induction es as [|e es IH]; intros prev pns R P O; cbn [line_list]; [constructor|].
  inversion R as [|? ? R1 R2]; subst. constructor.
  - unfold trace_line. apply line_ok; auto. intro OO. destruct (O OO) as (_ & O2 & O3). inversion O2; subst. inversion O3; subst. split; [apply ns_pos|]; auto.
  - apply IH; [exact R2|now apply ns_close|]. intro OO. destruct (O OO) as (O1 & O2 & O3). inversion O1 as [|? ? S1 S2]; subst. inversion O2; subst.
    split; [exact S1|]. split; [auto|]. rewrite Forall_forall in *. intros b Hb. apply ns_mono; auto.
Qed.

Lemma fixed1_nonempty : forall w x r, fixed1 w x ++ r <> [].
Proof.
  intros w x r H. apply app_eq_nil in H. destruct H as [H _]. unfold fixed1 in H. apply app_eq_nil in H. destruct H as [_ H].
  destruct (Qlt_le_dec x 0); [discriminate H|]. apply app_eq_nil in H. destruct H as [_ H]. discriminate H.
Qed.

Lemma string_spec : forall ns line es prev s, s <> [] ->
  string_loop ns line prev es s = s ++ concat (map (fun l => [10] ++ l) (line_list ns line prev es)).
Proof.
  intros ns line. induction es as [|e es IH]; intros prev s H; cbn [string_loop line_list map concat]; [now rewrite app_nil_r|].
  cbv zeta. destruct s as [|c s]; [congruence|]. rewrite IH by (intro X; discriminate X). now rewrite <- !app_assoc.
Qed.

Lemma joined_concat : forall l ls, joined (l :: ls) = l ++ concat (map (fun l => [10] ++ l) ls).
Proof.
  intros l ls. revert l. induction ls as [|l' ls IH]; intro l; [cbn [joined map concat]; now rewrite app_nil_r|].
  change (joined (l :: l' :: ls)) with (l ++ [10] ++ joined (l' :: ls)). rewrite IH. cbn [map concat]. now rewrite <- !app_assoc.
Qed.

Lemma line_nonempty : forall msg a b e, trace_line msg a b e <> [].
Proof. intros msg a b e. unfold trace_line, trace_head. rewrite <- app_assoc. apply fixed1_nonempty. Qed.

Lemma string_joined : forall ns line, (forall a b e, line a b e <> []) -> forall prev e es,
  string_loop ns line prev (e :: es) [] = joined (line_list ns line prev (e :: es)).
Proof.
  intros ns line NE prev e es. cbn [string_loop line_list]. cbv zeta. rewrite app_nil_l, string_spec by apply NE. rewrite joined_concat. reflexivity.
Qed.

Lemma file_ended : forall ns line es prev, file_loop ns line prev es = ended (line_list ns line prev es).
Proof.
  intros ns line. induction es as [|e es IH]; intro prev; [reflexivity|]. cbn [file_loop line_list]. unfold ended in *. cbn [map concat].
  rewrite IH. now rewrite <- !app_assoc.
Qed.

Lemma shown_string : forall ns line, (forall a b e, line a b e <> []) -> forall prev es (n : list Z),
  match es with [] => Some n | _ :: _ => Some (string_loop ns line prev es []) end =
  Some (match line_list ns line prev es with [] => n | _ :: _ => joined (line_list ns line prev es) end).
Proof. intros ns line NE prev es n. destruct es as [|e es]; [reflexivity|]. rewrite string_joined by exact NE. reflexivity. Qed.

Lemma shown_file : forall ns line prev es (n : list Z),
  match es with [] => Some n | _ :: _ => Some (file_loop ns line prev es) end =
  Some (match line_list ns line prev es with [] => n | _ :: _ => ended (line_list ns line prev es) end).
Proof. intros ns line prev es n. destruct es as [|e es]; [reflexivity|]. rewrite file_ended. reflexivity. Qed.

Lemma shuffle_in : forall ls out, shuffle ls out -> forall e, In e out -> exists l, In l ls /\ In e l.
Proof.
  intros ls out H. induction H as [ls H|a e l b out H IH]; intros x Hx; [destruct Hx|].
  destruct Hx as [->|Hx].
  - exists (x :: l). split; [apply in_or_app; right; now left|now left].
  - destruct (IH x Hx) as (l' & I1 & I2). apply in_app_or in I1. destruct I1 as [I1|[<-|I1]].
    + exists l'. split; [apply in_or_app; now left|exact I2].
    + exists (e :: l). split; [apply in_or_app; right; now left|now right].
    + exists l'. split; [apply in_or_app; right; now right|exact I2].
Qed.

Lemma drop_in : forall t l e, In e (drop_old t l) -> In e l.
Proof. intros t l. induction l as [|x l IH]; intros e H; cbn [drop_old] in H; [destruct H|]. destruct (ev_time x <? t); [right; auto|exact H]. Qed.

Lemma drop_late : forall t l, in_order l -> Forall (fun e => t <= ev_time e) (drop_old t l).
Proof.
  intros t l. induction l as [|x l IH]; intro O; cbn [drop_old]; [constructor|]. inversion O as [|? ? O1 O2]; subst.
  destruct (ev_time x <? t) eqn:E; [auto|]. constructor; [lia|]. rewrite Forall_forall in *. intros y Hy. specialize (O2 y Hy). lia.
Qed.

Theorem C80_text : C80_stmt.
Proof.
  intros hs cps msg O C logs start R. destruct (C56_trace hs O) as (out & PI & SH & IO). fold logs in PI, SH, IO. fold start in PI, SH.
  assert (RO : Forall (fun e => Z.abs (ev_time e - start) < 2 ^ 63) out).
  { apply Forall_forall. intros e He. destruct (shuffle_in _ _ SH e He) as (l & I1 & I2). apply in_map_iff in I1. destruct I1 as (l' & <- & I1).
    apply drop_in in I2. rewrite Forall_forall in R. specialize (R l' I1). rewrite Forall_forall in R. now apply R. }
  exists out, (line_list (ns_of cps start) (trace_line msg) 0 out). split; [exact PI|]. split; [exact SH|]. split; [|split].
  - apply lines_ok; auto.
    + rewrite Z.sub_diag. unfold nanos. change (inject_Z 0 * 1000000000 / cps)%Q with (0 * / cps)%Q. rewrite Qmult_0_l. vm_compute. discriminate.
    + intro OO. assert (ST : Forall (fun e => start <= ev_time e) out).
      { apply Forall_forall. intros e He. destruct (shuffle_in _ _ SH e He) as (l & I1 & I2). apply in_map_iff in I1. destruct I1 as (l' & <- & I1).
        rewrite Forall_forall in OO. pose proof (drop_late start l' (OO l' I1)) as DL. rewrite Forall_forall in DL. now apply DL. }
      split; [auto|]. split; [exact ST|]. rewrite Forall_forall in *. intros e He. apply ns_pos; auto.
  - unfold trace_string. rewrite PI. exact (shown_string _ _ (line_nonempty msg) _ _ _).
  - unfold trace_file. rewrite PI. exact (shown_file _ _ _ _ _).
Qed.
Print Assumptions C80_text.

(** ** Examples *)

(** 2.4 GHz; the message is the format's number. *)
Example C80_two_threads : trace_string 2400000000 (fun e => chars "event " ++ dec_str (ev_format e)) (map run [h1; h2; []]) =
  Some (chars "     0.0 ns (+   0.0 ns): event 4" ++ [10] ++ chars "     4.2 ns (+   4.2 ns): event 2" ++ [10] ++
    chars "     4.2 ns (+   0.0 ns): event 5" ++ [10] ++ chars "     8.3 ns (+   4.2 ns): event 6" ++ [10] ++ chars "    12.5 ns (+   4.2 ns): event 3").
Proof. vm_compute. reflexivity. Qed.

Example C80_file : trace_file 1000000000 (fun e => dec_str (ev_format e)) (map run [[Record_ (ev 7 3); Record_ (ev 123456789007 4)]]) =
  Some (chars "     0.0 ns (+   0.0 ns): 3" ++ [10] ++ chars "123456789000.0 ns (+123456789000.0 ns): 4" ++ [10]).
Proof. vm_compute. reflexivity. Qed.

Example C80_nothing : trace_string 2400000000 (fun _ => []) (map run [[]; [Record_ (ev 7 3); Reset]]) = Some (chars "No time trace events to print").
Proof. vm_compute. reflexivity. Qed.

(** A clock that ran backwards: a negative time. *)
Example C80_backwards : trace_string 1000000000 (fun e => dec_str (ev_format e)) (map run [[Record_ (ev 70 3); Record_ (ev 40 4)]]) =
  Some (chars "     0.0 ns (+   0.0 ns): 3" ++ [10] ++ chars "   -30.0 ns (+ -30.0 ns): 4").
Proof. vm_compute. reflexivity. Qed.

Example C80_long_message : exists head, trace_string 1000000000 (fun e => repeat 65 1500) (map run [[Record_ (ev 70 3)]]) = Some (head ++ repeat 65 999) /\
  head = chars "     0.0 ns (+   0.0 ns): ".
Proof. eexists. split; [|reflexivity]. vm_compute. reflexivity. Qed.
