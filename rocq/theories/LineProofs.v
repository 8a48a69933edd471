(** Proofs about LineFmt.v: digits, dates, and the order and the reading of times
    printed as text. *)
From Coq Require Import QArith Qabs.
From Verif Require Import Base BaseProofs Chars Fmt Preproc PreprocProofs DecodeProofs TimeFmt TimeProofs Prop_Time Decoder FileSpec LineFmt.
Open Scope Z_scope.
Ltac Zify.zify_post_hook ::= Z.div_mod_to_equations.

(** Characters compared one after the other, as sort does in the C locale. *)
Fixpoint lex_le (a b : list Z) : Prop :=
  match a, b with
  | [], _ => True
  | x :: a', y :: b' => x < y \/ (x = y /\ lex_le a' b')
  | _ :: _, [] => False
  end.

Lemma lex_refl : forall a, lex_le a a.
Proof. induction a as [|x a IH]; cbn [lex_le]; auto. Qed.

Lemma lex_same : forall p a b, lex_le a b -> lex_le (p ++ a) (p ++ b).
Proof. induction p as [|x p IH]; intros a b H; cbn [app lex_le]; auto. Qed.

(** ** Digits *)

Lemma dec_from : forall ds a, fold_left (fun a c => 10 * a + (c - 48)) ds a = a * 10 ^ zlen ds + dec_val ds.
Proof.
  unfold dec_val. induction ds as [|c ds IH]; intro a; cbn [fold_left]; [rewrite zlen_nil; lia|].
  rewrite IH, (IH (10 * 0 + (c - 48))). rewrite zlen_cons. pose proof (zlen_nonneg _ ds).
  replace (1 + zlen ds) with (Z.succ (zlen ds)) by lia. rewrite Z.pow_succ_r by lia. lia.
Qed.

Lemma dec_cons : forall c ds, dec_val (c :: ds) = (c - 48) * 10 ^ zlen ds + dec_val ds.
Proof. intros. unfold dec_val at 1. cbn [fold_left]. rewrite dec_from. lia. Qed.

Lemma dec_bound : forall ds, Forall is_digit ds -> 0 <= dec_val ds < 10 ^ zlen ds.
Proof.
  induction 1 as [|c ds Hc H IH]; [cbn; lia|]. rewrite dec_cons, zlen_cons. unfold is_digit in Hc. pose proof (zlen_nonneg _ ds).
  replace (1 + zlen ds) with (Z.succ (zlen ds)) by lia. rewrite Z.pow_succ_r by lia. nia.
Qed.

(** Numbers with as many digits: compared by their values. *)
Lemma digits_lex : forall a b, Forall is_digit a -> Forall is_digit b -> length a = length b -> dec_val a < dec_val b ->
  forall p q, lex_le (a ++ p) (b ++ q).
Proof.
  induction a as [|x a IH]; intros [|y b] Ha Hb HL HV p q; try discriminate HL; [cbn in HV; lia|].
  inversion Ha; subst. inversion Hb; subst. injection HL as HL. cbn [app lex_le].
  destruct (Z_lt_le_dec x y) as [|G]; [now left|right]. rewrite !dec_cons in HV.
  assert (E : zlen a = zlen b) by (unfold zlen; lia). rewrite E in HV.
  pose proof (dec_bound a ltac:(auto)). pose proof (dec_bound b ltac:(auto)). rewrite E in *.
  assert (x = y) by nia. subst y. split; [reflexivity|]. apply IH; auto. lia.
Qed.

Lemma digits_inj : forall a b, Forall is_digit a -> Forall is_digit b -> length a = length b -> dec_val a = dec_val b -> a = b.
Proof.
  induction a as [|x a IH]; intros [|y b] Ha Hb HL HV; try discriminate HL; [reflexivity|].
  inversion Ha; subst. inversion Hb; subst. injection HL as HL. rewrite !dec_cons in HV.
  assert (E : zlen a = zlen b) by (unfold zlen; lia). rewrite E in HV.
  pose proof (dec_bound a ltac:(auto)). pose proof (dec_bound b ltac:(auto)). rewrite E in *.
  assert (x = y) by nia. subst y. f_equal. apply IH; auto. lia.
Qed.

Lemma padded_spec : forall w n, 0 <= n -> Forall is_digit (padded w n) /\ dec_val (padded w n) = n /\ padded w n <> [].
Proof.
  intros w n H. unfold padded. destruct (dec_str_spec n H) as (N & D & V). rewrite dec_val_zeros. splits; auto.
  - apply Forall_app. split; [|exact D]. apply Forall_forall. intros c Hc. apply repeat_spec in Hc. subst c. unfold is_digit. lia.
  - intro E. apply app_eq_nil in E. now destruct E.
Qed.

Lemma padded_length : forall w n, 0 <= n < 10 ^ Z.of_nat w -> (0 < w)%nat -> length (padded w n) = w.
Proof.
  intros w n H W. unfold padded. destruct w as [|v]; [lia|].
  pose proof (dec_digits_len (S (Z.to_nat (Z.log2 n))) n v []) as L. fold (dec_str n) in L.
  rewrite app_length, repeat_length. specialize (L ltac:(lia)). cbn [length] in L. lia.
Qed.

Lemma nanos_padded : forall x, nanos_text x = padded 9 (rhe x).
Proof. reflexivity. Qed.

(** ** Numbers with separators *)

(** Width, number, separator behind it. *)
Definition fld : Type := nat * Z * list Z.
Definition fields (l : list fld) : list Z := concat (map (fun f => padded (fst (fst f)) (snd (fst f)) ++ snd f) l).

Definition fld_fits (f : fld) : Prop := (0 < fst (fst f))%nat /\ 0 <= snd (fst f) < 10 ^ Z.of_nat (fst (fst f)).
Definition alike (f g : fld) : Prop := fst (fst f) = fst (fst g) /\ snd f = snd g.

Fixpoint vlex (a b : list Z) : Prop :=
  match a, b with
  | x :: a', y :: b' => x < y \/ (x = y /\ vlex a' b')
  | _, _ => True
  end.

Lemma fields_lex : forall a b, Forall2 alike a b -> Forall fld_fits a -> Forall fld_fits b ->
  vlex (map (fun f => snd (fst f)) a) (map (fun f => snd (fst f)) b) -> lex_le (fields a) (fields b).
Proof.
  intros a b H. induction H as [|[[w n] s] [[w' n'] s'] a b [A1 A2] H IH]; intros Fa Fb V; [exact I|].
  cbn [fst snd] in A1, A2. subst w' s'. inversion Fa as [|? ? [P1 P2] Fa']; subst. inversion Fb as [|? ? [Q1 Q2] Fb']; subst. cbn [fst snd] in *.
  unfold fields. cbn [map concat fst snd]. fold (fields a) (fields b). cbn [map vlex fst snd] in V. rewrite <- !app_assoc.
  destruct V as [V|[-> V]].
  - destruct (padded_spec w n ltac:(lia)) as (D1 & V1 & _). destruct (padded_spec w n' ltac:(lia)) as (D2 & V2 & _).
    apply digits_lex; auto; [rewrite !padded_length by lia; reflexivity|lia].
  - apply lex_same, lex_same. auto.
Qed.

Lemma fields_length : forall a, Forall fld_fits a -> zlen (fields a) = fold_right Z.add 0 (map (fun f => Z.of_nat (fst (fst f)) + zlen (snd f)) a).
Proof.
  induction 1 as [|[[w n] s] a [P1 P2] H IH]; [reflexivity|]. unfold fields. cbn [map concat fold_right fst snd] in *. fold (fields a).
  rewrite !zlen_app, IH. unfold zlen at 1. rewrite padded_length by lia. lia.
Qed.

(** ** Dates *)

Definition valid (d : date) : Prop := 1970 <= da_year d /\ 1 <= da_month d <= 12 /\ 1 <= da_day d <= days_in (da_year d) (da_month d).

Definition date_lt (a b : date) : Prop :=
  da_year a < da_year b \/ (da_year a = da_year b /\ (da_month a < da_month b \/ (da_month a = da_month b /\ da_day a < da_day b))).

Lemma days_in_bound : forall y m, 28 <= days_in y m <= 31.
Proof.
  intros y m. unfold days_in. destruct (m =? 2); [destruct (leap y); lia|]. destruct ((m =? 4) || (m =? 6) || (m =? 9) || (m =? 11)); lia.
Qed.

Lemma next_valid : forall d, valid d -> valid (next_day d) /\ date_lt d (next_day d).
Proof.
  intros [y m d] (Y & M & D). cbn [da_year da_month da_day] in *. unfold next_day, valid, date_lt. cbn [da_year da_month da_day].
  destruct (Z.ltb_spec d (days_in y m)); cbn [da_year da_month da_day]; [lia|].
  destruct (Z.ltb_spec m 12); cbn [da_year da_month da_day].
  - pose proof (days_in_bound y (m + 1)). lia.
  - pose proof (days_in_bound (y + 1) 1). lia.
Qed.

Lemma date_succ : forall n, 0 <= n -> date_of (n + 1) = next_day (date_of n).
Proof.
  intros n H. unfold date_of. destruct n as [|q|q]; [reflexivity| |lia]. replace (Z.pos q + 1) with (Z.pos (Pos.succ q)) by lia.
  unfold Z.iter. apply Pos.iter_succ.
Qed.

Lemma date_valid : forall n, 0 <= n -> valid (date_of n).
Proof.
  intros n H. pattern n. apply natlike_ind; auto.
  - unfold date_of, valid. cbn. lia.
  - intros k Hk V. rewrite <- Z.add_1_r, date_succ by lia. now apply next_valid.
Qed.

Lemma date_lt_trans : forall a b c, date_lt a b -> date_lt b c -> date_lt a c.
Proof. unfold date_lt. intros. lia. Qed.

Lemma date_mono : forall a b, 0 <= a < b -> date_lt (date_of a) (date_of b).
Proof.
  intros a b H. replace b with (a + 1 + (b - a - 1)) by lia. pattern (b - a - 1). apply natlike_ind; [| |lia].
  - rewrite Z.add_0_r, date_succ by lia. apply next_valid, date_valid. lia.
  - intros k Hk L. eapply date_lt_trans; [exact L|]. replace (a + 1 + Z.succ k) with (a + 1 + k + 1) by lia.
    rewrite date_succ by lia. apply next_valid, date_valid. lia.
Qed.

Lemma date_inj : forall a b, 0 <= a -> 0 <= b -> date_of a = date_of b -> a = b.
Proof.
  intros a b Ha Hb E. destruct (Z.lt_trichotomy a b) as [L|[L|L]]; auto; exfalso.
  - pose proof (date_mono a b ltac:(lia)) as D. rewrite E in D. unfold date_lt in D. lia.
  - pose proof (date_mono b a ltac:(lia)) as D. rewrite E in D. unfold date_lt in D. lia.
Qed.

(** ** Time stamps *)

Definition stamp_fields (t nanos : Z) : list fld :=
  let d := date_of (t / 86400) in let s := t mod 86400 in
  [(4%nat, da_year d, chars "-"); (2%nat, da_month d, chars "-"); (2%nat, da_day d, chars " ");
   (2%nat, s / 3600, chars ":"); (2%nat, s / 60 mod 60, chars ":"); (2%nat, s mod 60, chars "."); (9%nat, nanos, [])].

Lemma stamp_text : forall zone a x, 0 <= a + zone a ->
  exists ts, time_string zone a = Some ts /\ ts ++ chars "." ++ nanos_text x = fields (stamp_fields (a + zone a) (rhe x)).
Proof.
  intros zone a x H. unfold time_string. destruct (Z.ltb_spec (a + zone a) 0); [lia|]. eexists. split; [reflexivity|].
  unfold fields, stamp_fields. cbn [map concat fst snd]. rewrite nanos_padded, <- !app_assoc, app_nil_r. reflexivity.
Qed.

Lemma stamp_fits : forall t n, 0 <= t -> da_year (date_of (t / 86400)) < 10000 -> 0 <= n < 10 ^ 9 -> Forall fld_fits (stamp_fields t n).
Proof.
  intros t n H Y N. destruct (date_valid (t / 86400) ltac:(lia)) as (Y1 & M & D). pose proof (days_in_bound (da_year (date_of (t / 86400))) (da_month (date_of (t / 86400)))).
  unfold stamp_fields. set (d := date_of (t / 86400)) in *. repeat constructor; unfold fld_fits; cbn [fst snd];
    change (Z.of_nat 4) with 4; change (Z.of_nat 2) with 2; change (Z.of_nat 9) with 9; try lia.
Qed.

Lemma stamp_order : forall t1 n1 t2 n2, 0 <= t1 -> 0 <= t2 -> (t1 < t2 \/ (t1 = t2 /\ n1 <= n2)) ->
  vlex (map (fun f => snd (fst f)) (stamp_fields t1 n1)) (map (fun f => snd (fst f)) (stamp_fields t2 n2)).
Proof.
  intros t1 n1 t2 n2 H1 H2 [L|[-> L]]; unfold stamp_fields; cbn [map vlex fst snd].
  - destruct (Z_lt_le_dec (t1 / 86400) (t2 / 86400)) as [LD|LD].
    + pose proof (date_mono (t1 / 86400) (t2 / 86400) ltac:(lia)) as D. unfold date_lt in D. intuition lia.
    + assert (E : t1 / 86400 = t2 / 86400) by lia. rewrite E. right; split; [reflexivity|]. right; split; [reflexivity|]. right; split; [reflexivity|].
      assert (S : t1 mod 86400 < t2 mod 86400) by lia. set (s1 := t1 mod 86400) in *. set (s2 := t2 mod 86400) in *.
      assert (R1 : 0 <= s1 < 86400) by (unfold s1; lia). assert (R2 : 0 <= s2 < 86400) by (unfold s2; lia). clearbody s1 s2. clear - S R1 R2. lia.
  - intuition lia.
Qed.
