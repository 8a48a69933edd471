(** Proofs about the compile-time format analysis. *)
From Verif Require Import Base BaseProofs Chars Fmt FmtProofs FmtLax FrontFmt.

Lemma fmt_ok_lax : forall ps, fmt_ok ps = true -> prec_int ps = true -> lax_ok ps = true.
Proof.
  intros ps H Hi. unfold fmt_ok, lax_ok, prec_int in *. rewrite forallb_forall in *.
  intros p Hp. specialize (H p Hp). specialize (Hi p Hp).
  destruct p as [c| |sp]; cbn in *; auto.
  - apply andb_true_iff in H. tauto.
  - apply spec_ok_inv in H. destruct H as (Hf & Hw & Hpr & Hl).
    pose proof (len_ok_len _ _ Hl) as L. pose proof (len_ok_conv _ _ Hl) as C. clear Hl.
    unfold lax_spec_ok. destruct sp as [fl w pr l c]; cbn [sp_flags sp_width sp_prec sp_len sp_conv] in *.
    rewrite Hf, Hw. cbn [andb].
    assert (forallb (fun c => mem_char c (chars "hljztL")) l = true) as ->
      by (repeat (destruct L as [L|L]; [subst l; reflexivity|]); destruct L).
    assert (mem_char c (chars "diuoxXfFeEgGaAcp%s") = true /\ (c =? c_pct) = false) as [-> ->]
      by (in_chars C; split; reflexivity).
    destruct pr; cbn [prec_ok] in *; rewrite ?Hpr, ?Hi; reflexivity.
Qed.

(** Encoding of parameter classes as ParamType. *)
Definition ptype (k : pclass) : Z :=
  match k with
  | KWidth => -5 | KPrec => -4 | KOther => -3
  | KStrDyn => -2 | KStr None => -1 | KStr (Some n) => n
  end.

Lemma skip_app : forall f a b, forallb f a = true -> f (hd0 b) = false -> skip f (a ++ b) = b.
Proof.
  induction a; intros b Ha Hb.
  - cbn. destruct b; auto. cbn in Hb. cbn. now rewrite Hb.
  - cbn in *. apply andb_true_iff in Ha. destruct Ha as [H1 H2]. rewrite H1. auto.
Qed.

Lemma dec_from_ge : forall ds a, forallb is_dig ds = true -> 0 <= a ->
  a <= fold_left (fun a c => 10 * a + (c - 48)) ds a.
Proof.
  induction ds as [|d ds IH]; intros a Hd Ha; cbn [fold_left]; [lia|].
  cbn [forallb] in Hd. apply andb_true_iff in Hd. destruct Hd as [H1 H2].
  unfold is_dig in H1.
  specialize (IH (10 * a + (d - 48)) H2 ltac:(lia)). lia.
Qed.

Lemma read_precision_app : forall ds a t, forallb is_dig ds = true -> 0 <= a ->
  fold_left (fun a c => 10 * a + (c - 48)) ds a <= 2147483647 -> isDigit (hd0 t) = false ->
  read_precision a (ds ++ t) = Some (fold_left (fun a c => 10 * a + (c - 48)) ds a, t).
Proof.
  induction ds as [|d ds IH]; intros a t Hd Ha Hm Ht.
  - cbn [app fold_left]. destruct t; cbn [read_precision]; auto.
    cbn [hd0 hd] in Ht. now rewrite Ht.
  - cbn [app fold_left read_precision] in *. cbn [forallb] in Hd.
    apply andb_true_iff in Hd. destruct Hd as [H1 H2].
    unfold isDigit. unfold is_dig in H1. rewrite H1.
    pose proof (dec_from_ge ds (10 * a + (d - 48)) H2 ltac:(lia)).
    unfold INT_MAX. replace (2147483647 <? 10 * a + (d - 48)) with false by lia.
    apply IH; auto. lia.
Qed.

Lemma lax_spec_inv : forall sp, lax_spec_ok sp = true ->
  forallb (fun c => mem_char c flag_chars) (sp_flags sp) = true /\
  width_ok (sp_width sp) = true /\
  match sp_prec sp with PrNum ds => forallb is_dig ds = true /\ dec_val ds <= 2147483647 | _ => True end /\
  forallb (fun c => mem_char c (chars "hljztL")) (sp_len sp) = true /\
  mem_char (sp_conv sp) (chars "diuoxXfFeEgGaAcp%s") = true /\
  ((sp_conv sp =? c_pct) = false \/ sp_flags sp <> [] \/ sp_width sp <> WNone
   \/ sp_prec sp <> PrNone \/ sp_len sp <> []).
Proof.
  intros sp H. unfold lax_spec_ok in H. rewrite !andb_true_iff in H.
  destruct H as (((((H1 & H2) & H3) & H4) & H5) & H6).
  rewrite negb_true_iff, andb_false_iff in H6.
  repeat match goal with |- _ /\ _ => split; auto end.
  - destruct (sp_prec sp); auto. apply andb_true_iff in H3. split; [tauto|lia].
  - destruct H6; auto. right.
    destruct (sp_flags sp), (sp_width sp), (sp_prec sp), (sp_len sp); intuition congruence.
Qed.

(** What can stand behind width and precision. *)
Definition ltail (c : Z) : Prop :=
  isFlag c = false /\ isDigit c = false /\ (c =? c_star) = false /\ (c =? c_dot) = false.

Lemma ltail_len_conv : forall l c r,
  forallb (fun c => mem_char c (chars "hljztL")) l = true ->
  mem_char c (chars "diuoxXfFeEgGaAcp%s") = true -> ltail (hd0 (l ++ c :: r)).
Proof.
  intros l c r Hl Hc. destruct l as [|x l]; cbn [app hd0 hd].
  - in_chars Hc; repeat split; reflexivity.
  - cbn [forallb] in Hl. apply andb_true_iff in Hl. destruct Hl as [Hl _].
    in_chars Hl; repeat split; reflexivity.
Qed.

Lemma gpi_tail_app : forall l c r n dyn p,
  forallb (fun c => mem_char c (chars "hljztL")) l = true ->
  mem_char c (chars "diuoxXfFeEgGaAcp%s") = true ->
  gpi_tail (l ++ c :: r) n dyn p =
  match n with
  | S k => Next r k
  | O => Ret (if c =? 115 then if dyn then -2 else if p =? -1 then -1 else p else -3)
  end.
Proof.
  intros l c r n dyn p Hl Hc. unfold gpi_tail.
  rewrite (skip_app isLength) by (auto; cbn [hd0 hd]; in_chars Hc; reflexivity).
  cbn [hd0 hd tl].
  assert (isTerminal c = true) as -> by (in_chars Hc; reflexivity).
  assert ((c =? 110) = false) as -> by (in_chars Hc; reflexivity).
  cbn [negb]. destruct n; auto.
  destruct (c =? 115); cbn [negb]; auto. destruct dyn; auto. destruct (p =? -1); auto.
Qed.

Lemma dec_val_nonneg : forall ds, forallb is_dig ds = true -> 0 <= dec_val ds.
Proof. intros. apply (dec_from_ge ds 0); auto. lia. Qed.

Lemma skipn_S_app : forall A (a : list A) x b, skipn (S (length a)) (a ++ x :: b) = b.
Proof. induction a; intros; [reflexivity|apply IHa]. Qed.

Lemma nth_error_nil : forall A n, nth_error (@nil A) n = None.
Proof. destruct n; reflexivity. Qed.

Definition nth_or (l : list pclass) (n : nat) (rest : list Z) : gres :=
  match nth_error l n with
  | Some k => Ret (ptype k)
  | None => Next rest (n - length l)
  end.

Lemma gpi_prec_app : forall pr l c r n fl w,
  match pr with PrNum ds => forallb is_dig ds = true /\ dec_val ds <= 2147483647 | _ => True end ->
  forallb (fun c => mem_char c (chars "hljztL")) l = true ->
  mem_char c (chars "diuoxXfFeEgGaAcp%s") = true ->
  gpi_prec (render_prec pr ++ l ++ c :: r) n =
  nth_or ((match pr with PrStar => [KPrec] | _ => [] end) ++ [spec_class (Spec fl w pr l c)]) n r.
Proof.
  intros pr l c r n fl w Hp Hl Hc.
  pose proof (ltail_len_conv l c r Hl Hc) as (T1 & T2 & T3 & T4).
  unfold gpi_prec, nth_or, spec_class. cbn [sp_conv sp_prec].
  destruct pr as [|ds|]; cbn [render_prec app].
  - rewrite T4. rewrite gpi_tail_app by auto.
    destruct n; cbn [nth_error length]; [|now rewrite nth_error_nil, Nat.sub_succ, Nat.sub_0_r].
    change (-1 =? -1) with true. destruct (c =? 115); reflexivity.
  - cbn [hd0 hd tl]. change (c_dot =? c_dot) with true. cbv iota.
    destruct Hp as [Hd Hm].
    assert ((hd0 (ds ++ l ++ c :: r) =? c_star) = false) as E.
    { destruct ds as [|d ds]; [exact T3|]. cbn [app hd0 hd]. cbn [forallb] in Hd.
      unfold is_dig, c_star in *. lia. }
    rewrite E.
    rewrite (read_precision_app ds 0) by (auto; lia). fold (dec_val ds).
    rewrite gpi_tail_app by auto.
    destruct n; cbn [nth_error length]; [|now rewrite nth_error_nil, Nat.sub_succ, Nat.sub_0_r].
    pose proof (dec_val_nonneg ds Hd). replace (dec_val ds =? -1) with false by lia.
    destruct (c =? 115); reflexivity.
  - cbn [hd0 hd tl]. change (c_dot =? c_dot) with true. change (c_star =? c_star) with true. cbv iota.
    destruct n; [reflexivity|]. rewrite gpi_tail_app by auto.
    destruct n; cbn [nth_error length]; [|now rewrite nth_error_nil, !Nat.sub_succ, Nat.sub_0_r].
    destruct (c =? 115); reflexivity.
Qed.

Lemma gpi_spec_app : forall sp r n, lax_spec_ok sp = true ->
  gpi_spec (tl (render_spec sp) ++ r) n = nth_or (spec_params sp) n r.
Proof.
  intros sp r n H. apply lax_spec_inv in H. destruct H as (Hf & Hw & Hp & Hl & Hc & _).
  unfold render_spec, gpi_spec. cbn [tl]. rewrite <- !app_assoc. cbn [app].
  pose proof (ltail_len_conv _ _ r Hl Hc) as (T1 & T2 & T3 & T4).
  assert (isFlag (hd0 (render_prec (sp_prec sp) ++ sp_len sp ++ sp_conv sp :: r)) = false /\
          isDigit (hd0 (render_prec (sp_prec sp) ++ sp_len sp ++ sp_conv sp :: r)) = false /\
          (hd0 (render_prec (sp_prec sp) ++ sp_len sp ++ sp_conv sp :: r) =? c_star) = false)
    as (P1 & P2 & P3) by (destruct (sp_prec sp); cbn [render_prec app]; repeat split; auto).
  destruct sp as [fl w pr l c]; cbn [sp_flags sp_width sp_prec sp_len sp_conv] in *.
  unfold spec_params; cbn [sp_width sp_prec].
  assert (isFlag (hd0 (render_width w ++ render_prec pr ++ l ++ c :: r)) = false) as W1.
  { destruct w as [|ds|]; cbn [render_width app]; auto.
    cbn in Hw. destruct ds as [|d ds]; [discriminate|]. cbn [app hd0 hd].
    cbn [forallb] in Hw. unfold isFlag, mem_char, is_dig in *.
    change (chars "-+ #0") with [45; 43; 32; 35; 48]. cbn [existsb]. lia. }
  rewrite (skip_app isFlag) by auto.
  destruct w as [|ds|]; cbn [render_width].
  - cbn [app]. rewrite P3. pose proof (skip_app isDigit [] _ eq_refl P2) as S. cbn [app] in S.
    rewrite S. now apply gpi_prec_app.
  - cbn in Hw. destruct ds as [|d ds]; [discriminate|]. apply andb_true_iff in Hw. destruct Hw as [Hw _].
    assert ((hd0 ((d :: ds) ++ render_prec pr ++ l ++ c :: r) =? c_star) = false) as ->.
    { cbn [app hd0 hd]. cbn [forallb] in Hw. unfold is_dig, c_star in *. lia. }
    rewrite (skip_app isDigit) by auto. cbn [app]. now apply gpi_prec_app.
  - cbn [app hd0 hd tl]. change (c_star =? c_star) with true. cbv iota.
    destruct n; [reflexivity|].
    rewrite (gpi_prec_app pr l c r n fl WStar) by auto.
    unfold nth_or. cbn [app nth_error length]. now rewrite Nat.sub_succ.
Qed.

Lemma lax_second : forall sp r, lax_spec_ok sp = true ->
  (hd0 (tl (render_spec sp) ++ r) =? c_pct) = false.
Proof.
  intros sp r H. apply lax_spec_inv in H. destruct H as (Hf & Hw & Hp & Hl & Hc & Hn).
  unfold render_spec. cbn [tl]. rewrite <- !app_assoc. cbn [app].
  destruct sp as [fl w pr l c]; cbn [sp_flags sp_width sp_prec sp_len sp_conv] in *.
  destruct fl as [|f fl]; cbn [app].
  2:{ cbn [hd0 hd]. cbn [forallb] in Hf. apply andb_true_iff in Hf. destruct Hf as [Hf _].
      in_chars Hf; reflexivity. }
  destruct w as [|ds|]; cbn [render_width app]; [|
    cbn in Hw; destruct ds as [|d ds]; [discriminate|]; cbn [app hd0 hd];
    cbn [forallb] in Hw; unfold is_dig, c_pct in *; lia | reflexivity].
  destruct pr as [|ds|]; cbn [render_prec app]; [|reflexivity..].
  destruct l as [|x l]; cbn [app hd0 hd].
  - destruct Hn as [Hn|[Hn|[Hn|[Hn|Hn]]]]; congruence.
  - cbn [forallb] in Hl. apply andb_true_iff in Hl. destruct Hl as [Hl _]. in_chars Hl; reflexivity.
Qed.

Lemma spec_params_length : forall sp, (length (spec_params sp) >= 1)%nat.
Proof. intros. unfold spec_params. rewrite !app_length. cbn. lia. Qed.

(** getParamInfo returns the class of the requested parameter. *)
Lemma gpi_render : forall ps fuel n, lax_ok ps = true -> (length (render ps) <= fuel)%nat ->
  gpi fuel (render ps) n =
  Some (match nth_error (params ps) n with Some k => ptype k | None => PT_INVALID end).
Proof.
  induction ps as [|p ps IH]; intros fuel n Hok Hf.
  - destruct n, fuel; reflexivity.
  - cbn [lax_ok forallb] in Hok. apply andb_true_iff in Hok. destruct Hok as [Hp Hok].
    rewrite render_cons in *. rewrite app_length in Hf.
    unfold params. cbn [map concat]. fold (params ps).
    destruct p as [c| |sp]; cbn [render_piece lax_piece_ok piece_params app] in *.
    + destruct fuel; [cbn in Hf; lia|]. cbn [gpi]. rewrite Hp. apply IH; auto. cbn in Hf; lia.
    + destruct fuel; [cbn in Hf; lia|]. cbn [gpi hd0 hd tl].
      change (c_pct =? c_pct) with true. cbn [negb]. apply IH; auto. cbn in Hf; lia.
    + rewrite render_spec_cons in *. destruct fuel; [cbn in Hf; lia|].
      cbn [app gpi]. change (c_pct =? c_pct) with true. cbn [negb].
      rewrite lax_second by auto. rewrite gpi_spec_app by auto. unfold nth_or.
      destruct (nth_error (spec_params sp) n) eqn:E.
      * rewrite nth_error_app1 by (apply nth_error_Some; congruence). now rewrite E.
      * apply nth_error_None in E. rewrite nth_error_app2 by auto.
        apply IH; auto. cbn in Hf; lia.
Qed.

Lemma kstr_nonneg : forall ps n, lax_ok ps = true -> In (KStr (Some n)) (params ps) -> 0 <= n.
Proof.
  intros ps n Hok Hin. unfold params in Hin. apply in_concat in Hin. destruct Hin as (l & H1 & H2).
  apply in_map_iff in H1. destruct H1 as (p & <- & H1).
  unfold lax_ok in Hok. rewrite forallb_forall in Hok. specialize (Hok p H1).
  destruct p as [c| |sp]; try destruct H2. cbn in Hok.
  apply lax_spec_inv in Hok. destruct Hok as (_ & _ & Hp & _).
  cbn [piece_params] in H2. unfold spec_params, spec_class in H2.
  apply in_app_or in H2. destruct H2 as [H2|H2].
  { destruct (sp_width sp); cbn in H2; intuition congruence. }
  apply in_app_or in H2. destruct H2 as [H2|H2].
  { destruct (sp_prec sp); cbn in H2; intuition congruence. }
  destruct H2 as [H2|[]].
  destruct (sp_conv sp =? 115); [|congruence]. destruct (sp_prec sp); try congruence.
  injection H2 as <-. apply dec_val_nonneg. tauto.
Qed.

Lemma ptype_valid : forall ps k, lax_ok ps = true -> In k (params ps) -> ptype k <> PT_INVALID.
Proof.
  intros ps k Hok Hin. unfold PT_INVALID.
  destruct k as [| | [n|] | |]; cbn [ptype]; try discriminate.
  apply kstr_nonneg in Hin; auto. intro; subst; lia.
Qed.

Lemma params_length : forall ps, (length (params ps) <= length (render ps))%nat.
Proof.
  induction ps as [|p ps IH]; [cbn; lia|].
  rewrite render_cons. unfold params in *. cbn [map concat]. rewrite !app_length.
  destruct p as [c| |[fl w pr l c]]; cbn [piece_params render_piece]; [cbn; lia..|].
  enough (length (spec_params (Spec fl w pr l c)) <= length (render_spec (Spec fl w pr l c)))%nat by lia.
  unfold spec_params, render_spec; cbn [sp_flags sp_width sp_prec sp_len sp_conv].
  cbn [length]. rewrite !app_length.
  destruct w, pr; cbn [length render_width render_prec]; lia.
Qed.

Lemma getParamInfo_render : forall ps n, lax_ok ps = true ->
  getParamInfo (render ps) n =
  Some (match nth_error (params ps) n with Some k => ptype k | None => PT_INVALID end).
Proof. intros. apply gpi_render; auto. Qed.

Lemma count_render : forall ps, lax_ok ps = true ->
  countFmtParams (render ps) = Some (length (params ps)).
Proof.
  intros ps Hok. unfold countFmtParams.
  assert (forall f c, (c + f > length (params ps))%nat -> (c <= length (params ps))%nat ->
            count_from f (render ps) c = Some (length (params ps))) as K.
  { induction f; intros c H1 H2; [lia|]. cbn [count_from].
    rewrite getParamInfo_render by auto.
    destruct (nth_error (params ps) c) eqn:E.
    - pose proof (ptype_valid ps p Hok (nth_error_In _ _ E)) as Hv.
      replace (ptype p =? PT_INVALID) with false by (symmetry; now apply Z.eqb_neq).
      assert (c < length (params ps))%nat by (apply nth_error_Some; congruence).
      apply IHf; lia.
    - change (PT_INVALID =? PT_INVALID) with true. cbv iota.
      apply nth_error_None in E. f_equal. lia. }
  apply K; try lia. pose proof (params_length ps). lia.
Qed.

Lemma analyze_from_render : forall ps n i, lax_ok ps = true -> (i + n = length (params ps))%nat ->
  analyze_from (render ps) i n = Some (map ptype (skipn i (params ps))).
Proof.
  induction n; intros i Hok Hi.
  - cbn. rewrite skipn_all2 by lia. reflexivity.
  - cbn [analyze_from]. rewrite getParamInfo_render by auto. rewrite IHn by (auto; lia).
    destruct (nth_error (params ps) i) eqn:E.
    + f_equal. apply nth_error_split in E. destruct E as (a & b & E & <-). rewrite E.
      rewrite skipn_app_exact. cbn [map].
      rewrite skipn_S_app. reflexivity.
    + apply nth_error_None in E. lia.
Qed.

Lemma nibbles_render : forall ps n i acc, lax_ok ps = true -> (i + n = length (params ps))%nat ->
  nibbles_loop (render ps) i n acc =
  Some (acc + zlen (filter is_nonstring (skipn i (params ps)))).
Proof.
  induction n; intros i acc Hok Hi.
  - cbn. rewrite skipn_all2 by lia. cbn. f_equal. unfold zlen. cbn. lia.
  - cbn [nibbles_loop]. rewrite getParamInfo_render by auto. rewrite IHn by (auto; lia).
    destruct (nth_error (params ps) i) as [k|] eqn:E.
    + f_equal. assert (In k (params ps)) as Hin by (eapply nth_error_In; eauto).
      pose proof (ptype_valid ps k Hok Hin).
      apply nth_error_split in E. destruct E as (a & b & E & <-). rewrite E.
      rewrite skipn_app_exact.
      rewrite skipn_S_app. cbn [filter].
      destruct k as [| |[m|]| |]; cbn [ptype is_nonstring];
        unfold PT_NON_STRING, PT_DYNAMIC_PRECISION, PT_DYNAMIC_WIDTH;
        rewrite ?zlen_cons.
      3:{ apply kstr_nonneg in Hin; auto.
          replace ((m =? -3) || (m =? -4) || (m =? -5)) with false by lia. lia. }
      all: cbn [Z.eqb orb Pos.eqb]; lia.
    + apply nth_error_None in E. lia.
Qed.

Theorem analyze_render : forall ps, lax_ok ps = true ->
  analyze (render ps) =
  Some (zlen (filter is_nonstring (params ps)), length (params ps), map ptype (params ps)).
Proof.
  intros ps Hok. unfold analyze, getNumNibblesNeeded, analyzeFormatString.
  rewrite count_render by auto. rewrite nibbles_render by auto.
  rewrite analyze_from_render by auto. reflexivity.
Qed.

(** Converse: everything accepted is in the lax language. *)
Lemma skip_split : forall f s, exists a, s = a ++ skip f s /\ forallb f a = true /\
  (skip f s = [] \/ f (hd0 (skip f s)) = false).
Proof.
  induction s as [|c s IH].
  - exists []. cbn. auto.
  - cbn [skip]. destruct (f c) eqn:E.
    + destruct IH as (a & H1 & H2 & H3). exists (c :: a). cbn [app forallb]. rewrite E, H2, <- H1. auto.
    + exists []. cbn. auto.
Qed.

Lemma read_precision_inv : forall s acc p s', 0 <= acc -> acc <= 2147483647 ->
  read_precision acc s = Some (p, s') ->
  exists ds, s = ds ++ s' /\ forallb is_dig ds = true /\
    p = fold_left (fun a c => 10 * a + (c - 48)) ds acc /\ p <= 2147483647 /\
    (s' = [] \/ isDigit (hd0 s') = false).
Proof.
  induction s as [|c s IH]; intros acc p s' Ha Hm E; cbn [read_precision] in E.
  - injection E as <- <-. exists []. cbn. intuition.
  - destruct (isDigit c) eqn:Ed.
    + destruct (INT_MAX <? 10 * acc + (c - 48)) eqn:El; [discriminate|].
      unfold INT_MAX, isDigit in *.
      apply IH in E; try lia. destruct E as (ds & -> & H2 & H3 & H4 & H5).
      exists (c :: ds). cbn [app forallb fold_left]. unfold is_dig at 1. rewrite Ed, H2. intuition.
    + injection E as <- <-. exists []. cbn [app forallb fold_left hd0 hd]. intuition.
Qed.

(** One specifier, as seen by a call asking for a far away parameter. *)
Lemma gpi_tail_inv : forall s n dyn p s' n', gpi_tail s n dyn p = Next s' n' ->
  exists l c, s = l ++ c :: s' /\ forallb (fun c => mem_char c (chars "hljztL")) l = true /\
    mem_char c (chars "diuoxXfFeEgGaAcp%s") = true /\ n = S n'.
Proof.
  intros s n dyn p s' n' E. unfold gpi_tail in E.
  destruct (skip_split isLength s) as (l & H1 & H2 & H3).
  destruct (isTerminal (hd0 (skip isLength s))) eqn:Et; [cbn [negb] in E|discriminate].
  destruct (hd0 (skip isLength s) =? 110) eqn:En; [discriminate|].
  destruct n.
  { destruct (negb _); try discriminate. destruct dyn; try discriminate. destruct (p =? -1); discriminate. }
  injection E as <- <-. exists l, (hd0 (skip isLength s)).
  destruct (skip isLength s) as [|c t]; cbn [hd0 hd tl] in *.
  - discriminate.
  - repeat split; auto. in_chars Et; try reflexivity. discriminate.
Qed.

Lemma gpi_prec_inv : forall s n s' n', gpi_prec s n = Next s' n' ->
  exists pr l c, s = render_prec pr ++ l ++ c :: s' /\
    match pr with PrNum ds => forallb is_dig ds = true /\ dec_val ds <= 2147483647 | _ => True end /\
    forallb (fun c => mem_char c (chars "hljztL")) l = true /\
    mem_char c (chars "diuoxXfFeEgGaAcp%s") = true.
Proof.
  intros s n s' n' E. unfold gpi_prec in E.
  destruct (hd0 s =? c_dot) eqn:Ed.
  - destruct s as [|x s]; [discriminate|]. cbn [hd0 hd tl] in *. apply Z.eqb_eq in Ed. subst x.
    change (hd 0 s) with (hd0 s) in *.
    destruct (hd0 s =? c_star) eqn:Es.
    + destruct n; [discriminate|]. destruct s as [|x s]; [discriminate|].
      cbn [hd0 hd tl] in *. apply Z.eqb_eq in Es. subst x.
      apply gpi_tail_inv in E. destruct E as (l & c & -> & H2 & H3 & _).
      exists PrStar, l, c. auto.
    + destruct (read_precision 0 s) as [[p t]|] eqn:Er; [|discriminate].
      apply read_precision_inv in Er; try lia. destruct Er as (ds & -> & D1 & -> & D3 & _).
      apply gpi_tail_inv in E. destruct E as (l & c & -> & H2 & H3 & _).
      exists (PrNum ds), l, c. cbn [render_prec app]. auto.
  - apply gpi_tail_inv in E. destruct E as (l & c & -> & H2 & H3 & _).
    exists PrNone, l, c. auto.
Qed.

Lemma gpi_spec_inv : forall s n s' n', gpi_spec s n = Next s' n' -> (hd0 s =? c_pct) = false ->
  exists sp, s = tl (render_spec sp) ++ s' /\ lax_spec_ok sp = true.
Proof.
  intros s n s' n' E Hs. unfold gpi_spec in E.
  destruct (skip_split isFlag s) as (fl & F1 & F2 & F3).
  set (t := skip isFlag s) in *.
  assert (exists w pr l c, t = render_width w ++ render_prec pr ++ l ++ c :: s' /\ width_ok w = true /\
     match pr with PrNum ds => forallb is_dig ds = true /\ dec_val ds <= 2147483647 | _ => True end /\
    forallb (fun c => mem_char c (chars "hljztL")) l = true /\
    mem_char c (chars "diuoxXfFeEgGaAcp%s") = true) as (w & pr & l & c & H1 & H2 & H3 & H4 & H5).
  { destruct (hd0 t =? c_star) eqn:Es.
    - destruct n; [discriminate|]. destruct t as [|x t]; [discriminate|].
      cbn [hd0 hd tl] in *. apply Z.eqb_eq in Es. subst x.
      apply gpi_prec_inv in E. destruct E as (pr & l & c & -> & H).
      exists WStar, pr, l, c. split; auto.
    - apply gpi_prec_inv in E. destruct E as (pr & l & c & E & H).
      destruct (skip_split isDigit t) as (ds & D1 & D2 & _). rewrite E in D1.
      destruct ds as [|d ds].
      + exists WNone, pr, l, c. split; auto.
      + exists (WNum (d :: ds)), pr, l, c. split; auto. split; auto. cbn [width_ok].
        apply andb_true_iff. split; [exact D2|].
        destruct F3 as [F3|F3]; [rewrite F3 in D1; discriminate|].
        rewrite D1 in F3. cbn [app hd0 hd] in F3. unfold isFlag, mem_char in F3.
        change (chars "-+ #0") with [45; 43; 32; 35; 48] in F3. cbn [existsb] in F3. lia. }
  exists (Spec fl w pr l c). split.
  - unfold render_spec; cbn [tl sp_flags sp_width sp_prec sp_len sp_conv].
    rewrite <- !app_assoc. cbn [app]. rewrite F1. now rewrite H1.
  - unfold lax_spec_ok. cbn [sp_flags sp_width sp_prec sp_len sp_conv].
    change (forallb isFlag fl = true) in F2. unfold isFlag in F2.
    change (fun c : Z => mem_char c (chars "-+ #0")) with (fun c : Z => mem_char c flag_chars) in F2.
    rewrite F2, H2, H4, H5. cbn [andb].
    assert (match pr with PrNum ds => forallb is_dig ds && (dec_val ds <=? 2147483647) | _ => true end = true) as ->.
    { destruct pr; auto. destruct H3 as [-> H3]. cbn [andb]. lia. }
    cbn [andb]. apply negb_true_iff. apply andb_false_iff.
    destruct fl; [|now right]. destruct w; [|now right|now right].
    destruct pr; [|now right|now right]. destruct l; [|now right].
    left. cbn in F1, H1. rewrite F1, H1 in Hs. exact Hs.
Qed.

Ltac split_ifs H :=
  repeat match type of H with context [if ?b then _ else _] => destruct b eqn:? end.

Lemma gpi_tail_ret : forall s n dyn p t, -1 <= p -> gpi_tail s n dyn p = Ret t -> t <> PT_INVALID.
Proof.
  intros s n dyn p t Hp E. unfold gpi_tail in E. destruct n; split_ifs E; try discriminate;
    injection E as <-; unfold PT_NON_STRING, PT_INVALID, PT_STRING_WITH_DYNAMIC_PRECISION, PT_STRING_WITH_NO_PRECISION; lia.
Qed.

Lemma gpi_spec_ret : forall s n t, gpi_spec s n = Ret t -> t <> PT_INVALID.
Proof.
  assert (forall s n t, gpi_prec s n = Ret t -> t <> PT_INVALID) as K.
  { intros s n t E. unfold gpi_prec in E.
    destruct (hd0 s =? c_dot); [|apply gpi_tail_ret in E; auto; lia].
    destruct (hd0 (tl s) =? c_star).
    - destruct n; [injection E as <-; unfold PT_DYNAMIC_PRECISION, PT_INVALID; lia|].
      apply gpi_tail_ret in E; auto; lia.
    - destruct (read_precision 0 (tl s)) as [[p s']|] eqn:Er; [|discriminate].
      apply read_precision_inv in Er; try lia. destruct Er as (ds & _ & D & -> & _).
      pose proof (dec_val_nonneg ds D). unfold dec_val in *.
      apply gpi_tail_ret in E; auto; lia. }
  intros s n t E. unfold gpi_spec in E. destruct (hd0 (skip isFlag s) =? c_star).
  - destruct n; [injection E as <-; unfold PT_DYNAMIC_WIDTH, PT_INVALID; lia|]. eapply K; eauto.
  - eapply K; eauto.
Qed.

(** A call that reaches the end of the string has seen only lax pieces. *)
Lemma gpi_inv : forall fuel s n, (length s <= fuel)%nat ->
  gpi fuel s n = Some PT_INVALID -> exists ps, render ps = s /\ lax_ok ps = true.
Proof.
  induction fuel as [|fuel IH]; intros s n Hf E.
  - destruct s; [|cbn in Hf; lia]. exists []. auto.
  - destruct s as [|c r]; [exists []; auto|]. cbn [length] in *. cbn [gpi] in E.
    destruct (c =? c_pct) eqn:Ec; cbn [negb] in E.
    + apply Z.eqb_eq in Ec. subst c.
      destruct (hd0 r =? c_pct) eqn:Er.
      * destruct r as [|x r]; [discriminate|]. cbn [hd0 hd tl length] in *.
        apply Z.eqb_eq in Er. subst x.
        destruct (IH r n) as (ps & <- & Hok); auto; try lia.
        exists (Pct :: ps). auto.
      * destruct (gpi_spec r n) as [t| |s' k] eqn:Es.
        -- apply gpi_spec_ret in Es. congruence.
        -- discriminate.
        -- pose proof (gpi_spec_inv r n s' k Es Er) as (sp & -> & Hsp).
           rewrite app_length in *.
           destruct (IH s' k) as (ps & <- & Hok); auto; try lia.
           exists (Conv sp :: ps). split; [reflexivity|].
           cbn [lax_ok forallb lax_piece_ok]. rewrite Hsp. exact Hok.
    + destruct (IH r n) as (ps & <- & Hok); auto; try lia.
      exists (Lit c :: ps). split; auto. cbn [lax_ok forallb lax_piece_ok]. rewrite Ec. exact Hok.
Qed.

Lemma count_from_inv : forall f fmt c n, count_from f fmt c = Some n ->
  getParamInfo fmt n = Some PT_INVALID.
Proof.
  induction f; intros fmt c n E; [discriminate|]. cbn [count_from] in E.
  destruct (getParamInfo fmt c) as [t|] eqn:Eg; [|discriminate].
  destruct (t =? PT_INVALID) eqn:Et.
  - injection E as <-. apply Z.eqb_eq in Et. now subst.
  - eauto.
Qed.

Theorem analyze_lax : forall s r, analyze s = Some r -> exists ps, render ps = s /\ lax_ok ps = true.
Proof.
  intros s r E. unfold analyze, getNumNibblesNeeded in E.
  destruct (countFmtParams s) as [n|] eqn:Ec; [|discriminate].
  apply count_from_inv in Ec. eapply gpi_inv; [|exact Ec]. lia.
Qed.
