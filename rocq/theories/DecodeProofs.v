(** Proofs about printing messages. *)
From Verif Require Import Base BaseProofs Packer PackerProofs Chars Fmt FmtProofs FmtLax FrontFmt FrontFmtProofs
  Prop_FrontFmt Regex MicroCode MicroCodeProofs Args Printf ArgsProofs Prop_Args Decode.

(** Literal text. *)
Fixpoint lits (ps : list piece) : list Z :=
  match ps with
  | [] => []
  | Lit c :: r => c :: lits r
  | Pct :: r => c_pct :: lits r
  | Conv _ :: r => lits r
  end.

Lemma run_lits : forall conv pre rest vs, convs pre = [] ->
  run conv (pre ++ rest) vs = option_map (app (lits pre)) (run conv rest vs).
Proof.
  induction pre as [|[c| |sp] pre IH]; intros rest vs H; cbn [app run lits convs] in *; try discriminate H.
  - destruct (run conv rest vs); reflexivity.
  - rewrite IH by auto. destruct (run conv rest vs); reflexivity.
  - rewrite IH by auto. destruct (run conv rest vs); reflexivity.
Qed.

Lemma convs_one : forall g sp, convs g = [sp] ->
  exists pre post, g = pre ++ Conv sp :: post /\ convs pre = [] /\ convs post = [].
Proof.
  induction g as [|[c| |s] g IH]; intros sp H; cbn [convs] in H; try discriminate H.
  - destruct (IH sp H) as (pre & post & -> & H1 & H2). exists (Lit c :: pre), post. auto.
  - destruct (IH sp H) as (pre & post & -> & H1 & H2). exists (Pct :: pre), post. auto.
  - injection H as -> H. exists [], g. auto.
Qed.

Lemma params_app : forall a b, params (a ++ b) = params a ++ params b.
Proof. intros. unfold params. now rewrite map_app, concat_app. Qed.

Lemma params_lits : forall pre, convs pre = [] -> params pre = [].
Proof.
  induction pre as [|[c| |s] pre IH]; intros H; cbn [convs] in H; try discriminate H; auto;
    change (params (?p :: pre)) with (piece_params p ++ params pre); rewrite IH; auto.
Qed.

Lemma fmt_ok_app : forall a b, fmt_ok (a ++ b) = fmt_ok a && fmt_ok b.
Proof. intros. unfold fmt_ok. apply forallb_app. Qed.

(** Strings in memory. *)
Lemma mstr_load : forall s m p n, load m p (length (s ++ [0])) = s ++ [0] ->
  Forall (fun c => c <> 0) s -> (length s < n)%nat -> mstr n m p = Some s.
Proof.
  induction s as [|c s IH]; intros m p n L H Hn; destruct n as [|n]; try (cbn in Hn; lia).
  - cbn in L. apply (f_equal (hd 1)) in L. cbn [hd] in L. cbn [mstr]. rewrite L. reflexivity.
  - inversion H; subst. cbn [app length load] in L.
    assert (L1 := f_equal (hd 0) L). assert (L2 := f_equal (@tl Z) L). cbn [hd tl] in L1, L2.
    cbn [mstr]. rewrite L1. replace (c =? 0) with false by lia.
    rewrite (IH m (p + 1) n); auto. cbn in Hn. lia.
Qed.

Lemma le_val4_wchar : forall w, wchar_ok w -> to_s 32 (le_val (le_bytes 4 w)) = w.
Proof.
  intros w H. rewrite le_val_le_bytes. change (256 ^ Z.of_nat 4) with (2 ^ 32).
  rewrite (to_s_cong 32 _ w) by (apply Z.mod_mod; lia). apply to_s_id; [lia|exact H].
Qed.

Lemma mwstr_load : forall s m p n, load m p (length (wbytes s ++ [0; 0; 0; 0])) = wbytes s ++ [0; 0; 0; 0] ->
  Forall (fun c => c <> 0) s -> Forall wchar_ok s -> (length s < n)%nat -> mwstr n m p = Some s.
Proof.
  induction s as [|c s IH]; intros m p n L H Hw Hn; destruct n as [|n]; try (cbn in Hn; lia).
  - cbn [mwstr]. unfold wchar_at. change (wbytes [] ++ [0; 0; 0; 0]) with [0; 0; 0; 0] in L.
    change (length [0; 0; 0; 0]) with 4%nat in L. rewrite L. reflexivity.
  - inversion H; subst. inversion Hw; subst.
    change (wbytes (c :: s)) with (le_bytes 4 c ++ wbytes s) in L. rewrite <- app_assoc in L.
    apply load_split in L. destruct L as [L1 L2]. rewrite le_bytes_length in L1. rewrite le_bytes_zlen in L2.
    cbn [mwstr]. unfold wchar_at. rewrite L1, le_val4_wchar by auto.
    replace (c =? 0) with false by lia.
    change (Z.of_nat 4) with 4 in L2. rewrite (IH m (p + 4) n); auto. cbn in Hn. lia.
Qed.

Lemma visible_again : forall lim buf s, up_to_nul buf <> None -> (forall n, lim = Some n -> 0 <= n) ->
  visible lim buf = Some s -> Forall (fun c => c <> 0) s /\ visible lim (s ++ [0]) = Some s.
Proof.
  intros lim buf s H Hn E. unfold visible in E.
  destruct (up_to_nul buf) as [t|] eqn:U; [|congruence].
  pose proof (up_to_nul_no0 _ _ U) as N.
  assert (T : forall u, Forall (fun c => c <> 0) u -> up_to_nul (u ++ [0]) = Some u).
  { clear. induction u as [|c u IH]; intros H; [reflexivity|]. inversion H; subst.
    cbn [app up_to_nul]. replace (c =? 0) with false by lia. now rewrite IH. }
  unfold visible. destruct lim as [n|].
  - injection E as <-.
    assert (F : Forall (fun c => c <> 0) (firstn (Z.to_nat n) t)).
    { rewrite <- (firstn_skipn (Z.to_nat n) t) in N. apply Forall_app in N. tauto. }
    split; [exact F|]. rewrite T by auto. rewrite firstn_firstn, Nat.min_id. reflexivity.
  - injection E as <-. split; [exact N|]. now apply T.
Qed.

Lemma visible_Forall : forall P lim buf s, Forall P buf -> visible lim buf = Some s -> Forall P s.
Proof.
  intros P lim buf s H E. 
  assert (A : forall b t, Forall P b -> up_to_nul b = Some t -> Forall P t).
  { clear. induction b as [|c b IH]; intros t H E; cbn in E; [discriminate|]. inversion H; subst.
    destruct (c =? 0); [injection E as <-; constructor|].
    destruct (up_to_nul b); [|discriminate]. injection E as <-. constructor; auto. }
  assert (B : forall n (t : list Z), Forall P t -> Forall P (firstn n t)).
  { clear. induction n; intros [|c t] H; cbn; constructor; inversion H; subst; auto. }
  unfold visible in E. destruct lim as [n|]; [|eauto].
  destruct (up_to_nul buf) eqn:U; [injection E as <-; eauto|].
  destruct (n <=? zlen buf); [|discriminate]. injection E as <-. auto.
Qed.

(** Types. *)
Lemma dkind_ckind : forall t k, kind_of t = Some k ->
  match k with
  | CkInt n => exists s, dkind_of t = DInt (Ity s (Z.to_nat n)) /\ (n = 1 \/ n = 2 \/ n = 4 \/ n = 8)
  | CkDouble => dkind_of t = DFlt 8
  | CkLongDouble => dkind_of t = DFlt 16
  | CkPtr => dkind_of t = DPtr
  | CkStr => dkind_of t = DStr
  | CkWStr => dkind_of t = DWStr
  end.
Proof.
  intros [] k H; cbn in H; try discriminate H; injection H as <-; cbn [dkind_of]; try reflexivity;
    eexists; (split; [reflexivity|lia]).
Qed.

Lemma conv_ity_size : forall sp n, spec_ok sp = true -> conv_kind sp = CkInt n ->
  (0 < it_bytes (conv_ity sp))%nat /\ Z.of_nat (it_bytes (conv_ity sp)) <= n.
Proof.
  intros sp n H. apply spec_ok_inv in H. destruct H as (_ & _ & _ & Hl).
  unfold conv_kind, conv_ity. destruct sp as [fl w pr l c]; cbn [sp_len sp_conv] in *.
  pose proof (len_ok_len _ _ Hl) as L. pose proof (len_ok_conv _ _ Hl) as C.
  repeat (destruct L as [L|L]; [subst l; in_chars C; vm_compute in Hl;
    first [discriminate Hl | intro E; vm_compute in E; first [discriminate E |
      injection E as <-; split; [apply Nat.ltb_lt; reflexivity|apply Z.leb_le; reflexivity]]]|]).
  destruct L.
Qed.

Lemma cast_cast : forall t t' v, (it_bytes t <= it_bytes t')%nat -> (0 < it_bytes t)%nat ->
  cast t (cast t' v) = cast t v.
Proof.
  intros t t' v H H0. apply cast_cong. unfold cast.
  assert (E : forall x, (to_s (it_bits t') x) mod 2 ^ it_bits t = x mod 2 ^ it_bits t).
  { intro x. unfold it_bits. rewrite <- (mod_mod_pow (to_s _ x) _ (8 * Z.of_nat (it_bytes t'))) by lia.
    rewrite to_s_mod by lia. apply mod_mod_pow. lia. }
  destruct (it_signed t'); [apply E|]. unfold to_u, it_bits. apply mod_mod_pow. lia.
Qed.

(** Classes of the arguments of one conversion, with what the guard of C09 says
    about them. *)
Definition is_strk (k : pclass) : bool := match k with KStr _ | KStrDyn => true | _ => false end.

Definition arg_ok (k : pclass) (a : arg) : Prop :=
  wf_arg a /\ string_fits a /\ class_ok k /\
  (is_strk k = true -> is_string_arg a = true) /\
  (k = KWidth \/ k = KPrec -> forall n, take_int (promote a) = Some n -> 0 <= n).

Lemma report_strp : forall k, class_ok k -> is_strp (report k) = is_strk k.
Proof.
  intros [| |[n|]| |] H; cbn in *; try reflexivity. unfold is_strp, PT_NON_STRING. lia.
Qed.

(** Reading an int argument of a [*]. *)
Lemma read_star : forall m nb a xs n, wf_arg a -> take_int (promote a) = Some n ->
  nibbler_at m nb (pval_of a :: xs) ->
  exists nb', getNext_int (Ity true 4) m nb = Some (n, nb') /\ nibbler_at m nb' xs /\ nb_end nb' = nb_end nb.
Proof.
  intros m nb a xs n Hw H Hn. pose proof (pval_of_wf a Hw) as W.
  destruct a as [t v|bs|p buf|p buf|p|e p buf]; try discriminate H.
  cbn [promote take_int] in H. destruct (promoted_bytes t =? 4) eqn:E; [|discriminate].
  apply (f_equal (fun o => match o with Some y => y | None => 0 end)) in H. subst n.
  cbn [pval_of] in *. unfold promoted_bytes in E. unfold pval_of_int in *.
  destruct (it_signed t).
  - replace (Nat.eqb (it_bytes t) 8) with false in * by (symmetry; apply Nat.eqb_neq; lia).
    destruct (getNext_int_at (Ity true 4) m nb (PS32 v) xs v 4 W eq_refl ltac:(cbn; lia) Hn) as (nb' & G & R).
    exists nb'. split; [exact G|exact R].
  - destruct (getNext_int_at (Ity true 4) m nb (PUns (it_bytes t) v) xs v 8 W eq_refl ltac:(cbn; lia) Hn) as (nb' & G & R).
    exists nb'. split; [exact G|exact R].
Qed.

Lemma pint_of_int : forall t v, (it_bytes t = 1 \/ it_bytes t = 2 \/ it_bytes t = 4 \/ it_bytes t = 8)%nat ->
  exists w, pint (pval_of_int t v) = Some (v, w) /\ promoted_bytes t <= Z.of_nat w.
Proof.
  intros t v H. unfold pval_of_int, promoted_bytes. destruct (it_signed t).
  - destruct (Nat.eqb (it_bytes t) 8) eqn:E.
    + exists 8%nat. apply Nat.eqb_eq in E. split; [reflexivity|lia].
    + exists 4%nat. apply Nat.eqb_neq in E. split; [reflexivity|lia].
  - exists 8%nat. split; [reflexivity|lia].
Qed.

Lemma spec_class_kind : forall sp, spec_ok sp = true ->
  is_strk (spec_class sp) = match conv_kind sp with CkStr | CkWStr => true | _ => false end.
Proof.
  intros sp H. apply spec_ok_inv in H. destruct H as (_ & _ & _ & Hl).
  unfold conv_kind, spec_class, is_strk. destruct sp as [fl w pr l c]; cbn [sp_len sp_conv sp_prec] in *.
  pose proof (len_ok_len _ _ Hl) as L. pose proof (len_ok_conv _ _ Hl) as C.
  repeat (destruct L as [L|L]; [subst l; in_chars C; vm_compute in Hl;
    first [discriminate Hl | destruct pr; vm_compute; reflexivity]|]).
  destruct L.
Qed.

(** Fetching the argument proper of a conversion. *)
Definition out_str (lim : option Z) (a : arg) : list Z :=
  match a with
  | AStr _ buf => match visible lim buf with Some s => s ++ [0] | None => [] end
  | AWStr _ buf => match visible lim buf with Some s => flat_map (le_bytes 4) s ++ [0; 0; 0; 0] | None => [] end
  | _ => []
  end.

(** How a string is stored: cut at the precision, or, with a precision of 0 in the
    format, perhaps whole. *)
Definition keeps (z : pclass -> pclass) : Prop :=
  forall k, z k = k \/ (k = KStr (Some 0) /\ z k = KStr None).
Definition stored_as (pr pr' : option Z) : Prop := pr' = pr \/ (pr = Some 0 /\ pr' = None).

Lemma visible_zero : forall buf, visible (Some 0) buf = Some [].
Proof.
  intro buf. unfold visible. pose proof (zlen_nonneg _ buf). destruct (up_to_nul buf); [reflexivity|].
  replace (0 <=? zlen buf) with true by lia. reflexivity.
Qed.

(** Reading a stored string again. *)
Lemma stored_again : forall pr pr' buf s, up_to_nul buf <> None -> (forall n, pr = Some n -> 0 <= n) -> stored_as pr pr' ->
  visible pr buf = Some s -> exists s', visible pr' buf = Some s' /\ Forall (fun c => c <> 0) s' /\ visible pr (s' ++ [0]) = Some s.
Proof.
  intros pr pr' buf s Hz Hp [->|[-> ->]] V.
  - exists s. destruct (visible_again pr buf s Hz Hp V) as [F A]. auto.
  - rewrite visible_zero in V. destruct (up_to_nul buf) as [s'|] eqn:E; [|congruence].
    assert (V' : visible None buf = Some s') by exact E.
    destruct (visible_again None buf s' ltac:(congruence) ltac:(discriminate) V') as [F A].
    exists s'. rewrite visible_zero. auto.
Qed.

Lemma fetch_spec : forall sp ty pr pr' a x m lim nb str xs,
  spec_ok sp = true -> kind_of ty = Some (conv_kind sp) ->
  take sp pr (promote a) = Some x -> wf_arg a -> string_fits a ->
  (forall n, pr = Some n -> 0 <= n) -> stored_as pr pr' ->
  (is_strk (spec_class sp) = true -> is_string_arg a = true) ->
  let ys := if is_strk (spec_class sp) then xs else pval_of a :: xs in
  let ss := if is_strk (spec_class sp) then out_str pr' a else [] in
  nibbler_at m nb ys ->
  load m str (length ss) = ss -> str + zlen ss <= lim ->
  exists v nb', fetch (dkind_of ty) m lim nb str = Some (Some v, nb', str + zlen ss) /\
    take sp pr v = Some x /\ nibbler_at m nb' xs /\ nb_end nb' = nb_end nb.
Proof.
  intros sp ty pr pr' a x m lim nb str xs Hsp Hk Ht Hw Hf Hpr Hst Hs ys ss Hn Hl Hlim.
  pose proof (dkind_ckind _ _ Hk) as D.
  pose proof (spec_class_kind sp Hsp) as SC.
  subst ys ss. rewrite SC in *.
  unfold take in Ht |- *.
  destruct (conv_kind sp) as [n| | | | |] eqn:CK.
  - (* integers *)
    destruct D as (s & D & Hn'). rewrite D. cbn [fetch].
    destruct a as [t v|bs|p buf|p buf|p|e p buf]; cbn [promote] in Ht; try discriminate Ht.
    destruct (promoted_bytes t =? Z.max 4 n) eqn:E; [|discriminate]. injection Ht as <-.
    cbn [wf_arg] in Hw. destruct Hw as [Hb Hr].
    destruct (pint_of_int t v Hb) as (w & P1 & P2). cbn [pval_of] in Hn.
    destruct (getNext_int_at (Ity s (Z.to_nat n)) m nb (pval_of_int t v) xs v w) as (nb' & G & N1 & N2); auto.
    { apply (pval_of_wf (AInt t v)). split; auto. }
    { cbn [it_bytes]. lia. }
    rewrite G. exists (VaInt (Ity s (Z.to_nat n)) (cast (Ity s (Z.to_nat n)) v)), nb'.
    destruct (conv_ity_size sp n Hsp CK) as [C1 C2].
    split; [rewrite zlen_nil, Z.add_0_r; reflexivity|]. split; [|split; assumption].
    unfold promoted_bytes. cbn [it_bytes]. rewrite Z2Nat.id by lia. rewrite Z.eqb_refl.
    f_equal. f_equal. apply cast_cast; cbn [it_bytes]; lia.
  - (* double *)
    rewrite D. cbn [fetch].
    destruct a as [t v|bs|p buf|p buf|p|e p buf]; cbn [promote] in Ht; try discriminate Ht.
    cbn [pval_of] in Hn. pose proof (pval_of_wf (AFlt bs) Hw) as W. cbn [pval_of] in W.
    assert (PF : pflt 8 bs = Some (if zlen bs =? 4 then F32w bs else F64 bs) /\ x = RFlt (if zlen bs =? 4 then F32w bs else F64 bs)).
    { unfold pflt. destruct (zlen bs =? 4); [split; congruence|].
      destruct (zlen bs =? 8); [split; [reflexivity|congruence]|discriminate]. }
    destruct PF as [PF ->].
    destruct (getNext_float_at 8 m nb bs xs _ ltac:(auto) W PF Hn) as (nb' & G & N1 & N2).
    rewrite G. exists (VaFlt (if zlen bs =? 4 then F32w bs else F64 bs)), nb'.
    split; [rewrite zlen_nil, Z.add_0_r; reflexivity|]. split; [|split; assumption].
    destruct (zlen bs =? 4); reflexivity.
  - (* long double *)
    rewrite D. cbn [fetch].
    destruct a as [t v|bs|p buf|p buf|p|e p buf]; cbn [promote] in Ht; try discriminate Ht.
    cbn [pval_of] in Hn. pose proof (pval_of_wf (AFlt bs) Hw) as W. cbn [pval_of] in W.
    destruct (zlen bs =? 4) eqn:E4; [discriminate|]. destruct (zlen bs =? 8) eqn:E8; [discriminate|].
    injection Ht as <-.
    assert (PF : pflt 16 bs = Some (F80 bs)).
    { unfold pflt. rewrite E4. destruct W as [[L|[L|L]] _]; unfold zlen in *; rewrite L in *; try discriminate; reflexivity. }
    destruct (getNext_float_at 16 m nb bs xs _ ltac:(auto) W PF Hn) as (nb' & G & N1 & N2).
    rewrite G. exists (VaFlt (F80 bs)), nb'.
    split; [rewrite zlen_nil, Z.add_0_r; reflexivity|]. split; [reflexivity|split; assumption].
  - (* pointer *)
    rewrite D. cbn [fetch].
    assert (A : exists p, pval_of a = PPtr p /\ x = RPtr p /\ 0 <= p < 2 ^ 64).
    { destruct a as [t v|bs|p buf|p buf|p|e p buf]; cbn [promote] in Ht; try discriminate Ht;
        injection Ht as <-; exists p; cbn [wf_arg] in Hw; (split; [reflexivity|split; [reflexivity|lia]]). }
    destruct A as (p & A & -> & Hp). rewrite A in Hn.
    destruct (getNext_int_at (Ity false 8) m nb (PPtr p) xs p 8) as (nb' & G & N1 & N2); auto.
    unfold getNext_ptr. rewrite G. exists (VaPtr (cast (Ity false 8) p) PoNone), nb'.
    split; [rewrite zlen_nil, Z.add_0_r; reflexivity|]. split; [|split; assumption].
    rewrite cast_id; [reflexivity|cbn; lia|exact Hp].
  - (* string *)
    rewrite D. cbn [fetch]. specialize (Hs eq_refl).
    destruct a as [t v|bs|p buf|p buf|p|e p buf]; try discriminate Hs; cbn [promote] in Ht; try discriminate Ht.
    cbn [out_str string_fits] in *. destruct (visible pr buf) as [s0|] eqn:V0; [|discriminate Ht].
    injection Ht as <-. destruct Hf as [Hz Hf].
    destruct (stored_again pr pr' buf s0 Hz Hpr Hst V0) as (s & V & F & A). rewrite V in *.
    rewrite zlen_app in *. change (zlen [0]) with 1 in *.
    rewrite (mstr_load s m str) by (auto; unfold zlen in *; lia).
    exists (VaPtr str (PoChars (s ++ [0]))), nb.
    split; [f_equal; f_equal; lia|]. split; [|split; auto].
    rewrite A. reflexivity.
  - (* wide string *)
    rewrite D. cbn [fetch]. specialize (Hs eq_refl).
    destruct a as [t v|bs|p buf|p buf|p|e p buf]; try discriminate Hs; cbn [promote] in Ht; try discriminate Ht.
    cbn [out_str string_fits] in *. destruct (visible pr buf) as [s0|] eqn:V0; [|discriminate Ht].
    injection Ht as <-. destruct Hf as [Hz Hf].
    destruct (stored_again pr pr' buf s0 Hz Hpr Hst V0) as (s & V & F & A). rewrite V in *.
    fold (wbytes s) in *.
    rewrite zlen_app, wbytes_zlen in *. change (zlen [0; 0; 0; 0]) with 4 in *.
    destruct Hw as [_ Hw]. pose proof (visible_Forall _ _ _ _ Hw V) as Fw.
    rewrite (mwstr_load s m str) by (auto; unfold zlen in *; lia).
    exists (VaPtr str (PoWide (s ++ [0]))), nb.
    split; [f_equal; f_equal; lia|]. split; [|split; auto].
    rewrite A. reflexivity.
Qed.

Ltac splits := repeat match goal with |- _ /\ _ => split end.

(** Consuming the int of a [*]. *)
Lemma take_int_range : forall a n, take_int a = Some n -> to_s 32 n = n.
Proof.
  intros [t v| |] n H; cbn [take_int] in H; try discriminate H.
  destruct (promoted_bytes t =? 4); [|discriminate].
  apply (f_equal (fun o => match o with Some y => y | None => 0 end)) in H. subst n.
  apply to_s_id; [lia|]. apply to_s_range. lia.
Qed.

Definition wstar (w : width) : list pclass := match w with WStar => [KWidth] | _ => [] end.
Definition pstar (p : prec) : list pclass := match p with PrStar => [KPrec] | _ => [] end.

Lemma width_step : forall z w ks args extra wo vs1 m nb dyn, keeps z ->
  Forall2 arg_ok (wstar w ++ ks) args ->
  take_width w (map promote args) = Some (extra, wo, vs1) ->
  nibbler_at m nb (pvals (map report (wstar w ++ ks)) args) ->
  exists wd args1 nb1, Forall2 arg_ok ks args1 /\ vs1 = map promote args1 /\
    next_int (match w with WStar => true | _ => false end) m nb = Some (wd, nb1) /\
    nibbler_at m nb1 (pvals (map report ks) args1) /\ nb_end nb1 = nb_end nb /\
    strings_image (map z (wstar w ++ ks)) dyn args = strings_image (map z ks) dyn args1 /\
    match w with WStar => 0 <= wd | _ => wd = -1 end /\
    (forall r, take_width w (match w with WStar => VaInt (Ity true 4) wd :: r | _ => r end) = Some (extra, wo, r)).
Proof.
  intros z w ks args extra wo vs1 m nb dyn HZ HF HT HN.
  assert (ZW : z KWidth = KWidth) by (destruct (HZ KWidth) as [?|[? _]]; [assumption|discriminate]).
  destruct w as [|ds|]; cbn [wstar app] in *.
  - cbn [take_width] in HT. exists (-1), args, nb.
    assert (extra = [] /\ wo = None /\ vs1 = map promote args) as (-> & -> & ->) by (repeat split; congruence).
    splits; auto.
  - cbn [take_width] in HT. exists (-1), args, nb.
    assert (extra = [] /\ wo = Some (dec_val ds) /\ vs1 = map promote args) as (-> & -> & ->) by (repeat split; congruence).
    splits; auto.
  - inversion HF as [|? a ? args1 (Hw & Hf & Hk & Hs & Hd) HF']; subst.
    cbn [map take_width] in HT. destruct (take_int (promote a)) as [n|] eqn:TI; [|discriminate].
    assert (N : 0 <= n) by (apply Hd; auto).
    replace (n <? 0) with false in HT by lia.
    assert (extra = [] /\ wo = Some n /\ vs1 = map promote args1) as (-> & -> & ->) by (repeat split; congruence).
    cbn [map pvals] in HN. change (is_strp (report KWidth)) with false in HN. cbv iota in HN.
    destruct (read_star m nb a _ n Hw TI HN) as (nb' & G & N1 & N2).
    exists n, args1, nb'. cbn [next_int map]. rewrite ZW. cbn [strings_image].
    splits; auto. intro r. cbn [take_width take_int]. change (promoted_bytes (Ity true 4) =? 4) with true.
    cbv iota. rewrite (take_int_range _ _ TI). replace (n <? 0) with false by lia. reflexivity.
Qed.

Lemma prec_step : forall z p ks args po vs1 m nb dyn, keeps z -> prec_ok p = true ->
  Forall2 arg_ok (pstar p ++ ks) args ->
  take_prec p (map promote args) = Some (po, vs1) ->
  nibbler_at m nb (pvals (map report (pstar p ++ ks)) args) ->
  exists pd args1 nb1, Forall2 arg_ok ks args1 /\ vs1 = map promote args1 /\
    next_int (match p with PrStar => true | _ => false end) m nb = Some (pd, nb1) /\
    nibbler_at m nb1 (pvals (map report ks) args1) /\ nb_end nb1 = nb_end nb /\
    strings_image (map z (pstar p ++ ks)) dyn args = strings_image (map z ks) (match p with PrStar => po | _ => dyn end) args1 /\
    match p with PrStar => 0 <= pd | _ => pd = -1 end /\
    (forall n, po = Some n -> 0 <= n) /\
    (forall r, take_prec p (match p with PrStar => VaInt (Ity true 4) pd :: r | _ => r end) = Some (po, r)).
Proof.
  intros z p ks args po vs1 m nb dyn HZ Hp HF HT HN.
  assert (ZP : z KPrec = KPrec) by (destruct (HZ KPrec) as [?|[? _]]; [assumption|discriminate]).
  destruct p as [|ds|]; cbn [pstar app] in *.
  - cbn [take_prec] in HT. exists (-1), args, nb.
    assert (po = None /\ vs1 = map promote args) as (-> & ->) by (repeat split; congruence).
    splits; auto; discriminate.
  - cbn [take_prec] in HT. exists (-1), args, nb.
    assert (po = Some (dec_val ds) /\ vs1 = map promote args) as (-> & ->) by (repeat split; congruence).
    splits; auto. intros n E.
    apply (f_equal (fun o => match o with Some y => y | None => 0 end)) in E. subst n.
    apply dec_val_nonneg. exact Hp.
  - inversion HF as [|? a ? args1 (Hw & Hf & Hk & Hs & Hd) HF']; subst.
    cbn [map take_prec] in HT. destruct (take_int (promote a)) as [n|] eqn:TI; [|discriminate].
    assert (N : 0 <= n) by (apply Hd; auto).
    replace (n <? 0) with false in HT by lia.
    assert (po = Some n /\ vs1 = map promote args1) as (-> & ->) by (repeat split; congruence).
    cbn [map pvals] in HN. change (is_strp (report KPrec)) with false in HN. cbv iota in HN.
    destruct (read_star m nb a _ n Hw TI HN) as (nb' & G & N1 & N2).
    exists n, args1, nb'. cbn [next_int map]. rewrite ZP. cbn [strings_image]. rewrite TI. replace (n <? 0) with false by lia.
    splits; auto. intro r. cbn [take_prec take_int]. change (promoted_bytes (Ity true 4) =? 4) with true.
    cbv iota. rewrite (take_int_range _ _ TI). replace (n <? 0) with false by lia. reflexivity.
Qed.

(** One conversion. *)
Lemma spec_step : forall z sp ty ks args rc vs' m lim nb str dyn, keeps z ->
  spec_ok sp = true -> kind_of ty = Some (conv_kind sp) ->
  Forall2 arg_ok (spec_params sp ++ ks) args ->
  resolve sp (map promote args) = Some (rc, vs') ->
  nibbler_at m nb (pvals (map report (spec_params sp ++ ks)) args) ->
  load m str (length (strings_image (map z (spec_params sp ++ ks)) dyn args)) = strings_image (map z (spec_params sp ++ ks)) dyn args ->
  str + zlen (strings_image (map z (spec_params sp ++ ks)) dyn args) <= lim ->
  exists wd nb1 pd nb2 v nb3 str' args' dyn',
    next_int (dyn_width sp) m nb = Some (wd, nb1) /\
    next_int (dyn_prec sp) m nb1 = Some (pd, nb2) /\
    fetch (dkind_of ty) m lim nb2 str = Some (Some v, nb3, str') /\
    resolve sp (fprintf_args wd pd v) = Some (rc, []) /\
    gives (sp, rc) v /\
    Forall2 arg_ok ks args' /\ vs' = map promote args' /\
    nibbler_at m nb3 (pvals (map report ks) args') /\ nb_end nb3 = nb_end nb /\
    load m str' (length (strings_image (map z ks) dyn' args')) = strings_image (map z ks) dyn' args' /\
    str' + zlen (strings_image (map z ks) dyn' args') = str + zlen (strings_image (map z (spec_params sp ++ ks)) dyn args).
Proof.
  intros z sp ty ks args rc vs' m lim nb str dyn HZ Hsp Hk HF HR HN HL Hlim.
  pose proof (spec_ok_inv _ Hsp) as (_ & _ & Hpo & _).
  unfold spec_params in *. fold (wstar (sp_width sp)) in *. fold (pstar (sp_prec sp)) in *.
  rewrite <- !app_assoc in *. change ([spec_class sp] ++ ks) with (spec_class sp :: ks) in *.
  unfold resolve in HR. destruct (take_width (sp_width sp) (map promote args)) as [[[extra wo] vs1]|] eqn:TW; [|discriminate].
  destruct (width_step z _ _ _ _ _ _ m nb dyn HZ HF TW HN) as (wd & args1 & nb1 & HF1 & -> & G1 & HN1 & E1 & S1 & W1 & T1).
  rewrite S1 in *. clear HF HN TW.
  destruct (take_prec (sp_prec sp) (map promote args1)) as [[po vs2]|] eqn:TP; [|discriminate].
  destruct (prec_step z _ _ _ _ _ m nb1 dyn HZ Hpo HF1 TP HN1) as (pd & args2 & nb2 & HF2 & -> & G2 & HN2 & E2 & S2 & W2 & P2 & T2).
  rewrite S2 in *. clear HF1 HN1 TP.
  inversion HF2 as [|? a ? args3 (Hw & Hf & Hkk & Hs & Hd) HF3]; subst.
  cbn [map] in HR. destruct (take sp po (promote a)) as [x|] eqn:TK; [|discriminate].
  assert (rc = RConv (extra ++ sp_flags sp) wo po (sp_len sp) (sp_conv sp) x /\ vs' = map promote args3) as (-> & ->)
    by (split; congruence).
  cbn [map pvals] in HN2. rewrite report_strp in HN2 by auto.
  set (dyn1 := match sp_prec sp with PrStar => po | _ => dyn end) in *.
  assert (SI : exists po', stored_as po po' /\ strings_image (map z (spec_class sp :: ks)) dyn1 (a :: args3)
    = (if is_strk (spec_class sp) then out_str po' a else []) ++ strings_image (map z ks) dyn1 args3).
  { subst dyn1. cbn [map]. pose proof (HZ (spec_class sp)) as HZ1. unfold spec_class in *.
    assert (NZ : z KOther = KOther) by (destruct (HZ KOther) as [?|[? _]]; [assumption|discriminate]).
    assert (ND : z KStrDyn = KStrDyn) by (destruct (HZ KStrDyn) as [?|[? _]]; [assumption|discriminate]).
    destruct (sp_conv sp =? 115).
    2: { exists po. split; [now left|]. destruct (sp_prec sp); rewrite NZ; reflexivity. }
    destruct (sp_prec sp) as [|ds|] eqn:EP; cbn [is_strk]; specialize (T2 []); cbn [take_prec] in T2.
    - assert (po = None) as -> by congruence. exists None. split; [now left|].
      destruct HZ1 as [->|[X _]]; [reflexivity|discriminate X].
    - assert (po = Some (dec_val ds)) as -> by congruence. destruct HZ1 as [->|[X ->]].
      + exists (Some (dec_val ds)). split; [now left|reflexivity].
      + assert (XE : dec_val ds = 0) by congruence. rewrite XE.
        exists None. split; [right; auto|reflexivity].
    - exists po. split; [now left|]. rewrite ND. reflexivity. }
  destruct SI as (po' & SA & SI).
  rewrite SI in *. apply load_split in HL. destruct HL as [HL1 HL2]. rewrite zlen_app in *.
  pose proof (zlen_nonneg _ (strings_image (map z ks) dyn1 args3)).
  destruct (fetch_spec sp ty po po' a x m lim nb2 str (pvals (map report ks) args3) Hsp Hk TK Hw Hf P2 SA Hs)
    as (v & nb3 & F & TK' & N3 & E3); auto.
  { lia. }
  exists wd, nb1, pd, nb2, v, nb3, (str + zlen (if is_strk (spec_class sp) then out_str po' a else [])), args3, dyn1.
  unfold dyn_width, dyn_prec, gives. cbn [fst snd rc_prec rc_val]. rewrite G1, G2, F. splits; auto; try congruence; try lia.
  unfold resolve, fprintf_args.
  assert (R : forall vs, take_width (sp_width sp) vs = Some (extra, wo, match sp_prec sp with PrStar => VaInt (Ity true 4) pd :: [v] | _ => [v] end) ->
    match take_width (sp_width sp) vs with
    | None => None
    | Some (extra, w, vs1) =>
      match take_prec (sp_prec sp) vs1 with
      | None => None
      | Some (pr, vs2) =>
        match vs2 with
        | [] => None
        | v :: vs3 => match take sp pr v with
          | None => None
          | Some x => Some (RConv (extra ++ sp_flags sp) w pr (sp_len sp) (sp_conv sp) x, vs3)
          end
        end
      end
    end = Some (RConv (extra ++ sp_flags sp) wo po (sp_len sp) (sp_conv sp) x, [])).
  { intros vs ->. rewrite T2, TK'. reflexivity. }
  apply R. clear R.
  destruct (sp_width sp), (sp_prec sp); subst;
    repeat match goal with
    | H : 0 <= ?z |- context [?z <? 0] => replace (z <? 0) with false by lia
    | H : 0 <= ?z |- context [0 <=? ?z] => replace (0 <=? z) with true by lia
    end; change (-1 <? 0) with true; change (0 <=? -1) with false; cbn [andb]; apply T1.
Qed.

Lemma resolved_lits : forall ps rest vs, convs ps = [] -> resolved (ps ++ rest) vs = resolved rest vs.
Proof.
  induction ps as [|[c| |sp] ps IH]; intros rest vs H; cbn [app resolved]; auto; discriminate H.
Qed.

(** One fragment. *)
Lemma group_step : forall z conv g f ks rest args text m lim s dyn, keeps z ->
  describes g f -> fmt_ok g = true -> ks = params rest ->
  Forall2 arg_ok (params g ++ ks) args ->
  run conv (g ++ rest) (map promote args) = Some text ->
  nibbler_at m (ps_nb s) (pvals (map report (params g ++ ks)) args) ->
  load m (ps_str s) (length (strings_image (map z (params g ++ ks)) dyn args)) = strings_image (map z (params g ++ ks)) dyn args ->
  ps_str s + zlen (strings_image (map z (params g ++ ks)) dyn args) <= lim ->
  exists s' t1 t2 args' dyn', print_frag conv m lim f s = Some s' /\ ps_text s' = ps_text s ++ t1 /\
    text = t1 ++ t2 /\ run conv rest (map promote args') = Some t2 /\
    (exists l1 pv, ps_pushed s' = ps_pushed s ++ pv /\ Forall2 gives l1 pv /\
       forall l2, resolved rest (map promote args') = Some l2 -> resolved (g ++ rest) (map promote args) = Some (l1 ++ l2)) /\
    Forall2 arg_ok ks args' /\
    nibbler_at m (ps_nb s') (pvals (map report ks) args') /\
    load m (ps_str s') (length (strings_image (map z ks) dyn' args')) = strings_image (map z ks) dyn' args' /\
    ps_str s' + zlen (strings_image (map z ks) dyn' args') = ps_str s + zlen (strings_image (map z (params g ++ ks)) dyn args).
Proof.
  intros z conv g f ks rest args text m lim s dyn HZ (Hx & Hd) Hok Hks HF HR HN HL Hlim.
  destruct (convs g) as [|sp [|? ?]] eqn:EC; [| |contradiction].
  - destruct Hd as (Ht & Hdw & Hdp). rewrite (params_lits g EC) in *. cbn [app] in *.
    rewrite run_lits in HR by auto. destruct (run conv rest (map promote args)) as [t2|] eqn:ER; [|discriminate].
    cbn [option_map] in HR.
    unfold print_frag. rewrite Ht, Hdw, Hdp, Hx. cbn [next_int dkind_of fetch].
    unfold printf. rewrite parse_render by auto.
    assert (E : run conv g [] = Some (lits g)).
    { rewrite <- (app_nil_r g) at 1. rewrite run_lits by auto. cbn. now rewrite app_nil_r. }
    rewrite E. exists (Pst (ps_text s ++ lits g) (ps_pushed s ++ []) (ps_nb s) (ps_str s)), (lits g), t2, args, dyn.
    splits; auto; try congruence.
    exists [], []. splits; [reflexivity|constructor|].
    intros l2 E2. rewrite resolved_lits by auto. exact E2.
  - destruct Hd as (Hk & Hdw & Hdp).
    destruct (convs_one g sp EC) as (pre & post & -> & C1 & C2).
    assert (PE : params (pre ++ Conv sp :: post) = spec_params sp).
    { rewrite params_app, (params_lits pre C1). cbn [app].
      change (params (Conv sp :: post)) with (spec_params sp ++ params post). rewrite (params_lits post C2). apply app_nil_r. }
    rewrite PE in *. pose proof Hok as Hok2.
    rewrite fmt_ok_app in Hok. apply andb_true_iff in Hok. destruct Hok as [_ Hok].
    unfold fmt_ok in Hok. cbn [forallb piece_ok] in Hok. apply andb_true_iff in Hok. destruct Hok as [Hsp _].
    rewrite <- app_assoc in HR. rewrite run_lits in HR by auto. cbn [app run] in HR.
    destruct (resolve sp (map promote args)) as [[rc vs']|] eqn:ER; [|discriminate].
    destruct (spec_step z sp (fr_type f) ks args rc vs' m lim (ps_nb s) (ps_str s) dyn HZ Hsp Hk HF ER HN HL Hlim)
      as (wd & nb1 & pd & nb2 & v & nb3 & str' & args' & dyn' & G1 & G2 & F & R & GV & HF' & -> & N' & E' & L' & Z').
    rewrite run_lits in HR by auto.
    destruct (run conv rest (map promote args')) as [t2|] eqn:ER2; [|discriminate]. cbn [option_map] in HR.
    unfold print_frag. rewrite Hdw, Hdp, G1, G2, F, Hx. unfold printf. rewrite parse_render by auto.
    rewrite run_lits by auto. cbn [run]. rewrite R.
    assert (E : run conv post [] = Some (lits post)).
    { rewrite <- (app_nil_r post) at 1. rewrite run_lits by auto. cbn. now rewrite app_nil_r. }
    rewrite E. cbn [option_map].
    exists (Pst (ps_text s ++ (lits pre ++ conv rc ++ lits post)) (ps_pushed s ++ [v]) nb3 str'),
      (lits pre ++ conv rc ++ lits post), t2, args', dyn'.
    cbn [ps_text ps_nb ps_str ps_pushed]. splits; auto.
    2: { exists [(sp, rc)], [v]. splits; [reflexivity|constructor; [exact GV|constructor]|].
         intros l2 E2. rewrite <- app_assoc, resolved_lits by auto. cbn [app resolved]. rewrite ER.
         rewrite resolved_lits by auto. rewrite E2. reflexivity. }
    apply (f_equal (fun o => match o with Some y => y | None => [] end)) in HR. subst text.
    now rewrite !app_assoc.
Qed.

Lemma print_groups_as : forall z conv, keeps z -> forall gs fs args text m lim s dyn,
  Forall2 describes gs fs -> fmt_ok (concat gs) = true ->
  Forall2 arg_ok (params (concat gs)) args ->
  run conv (concat gs) (map promote args) = Some text ->
  nibbler_at m (ps_nb s) (pvals (map report (params (concat gs))) args) ->
  load m (ps_str s) (length (strings_image (map z (params (concat gs))) dyn args)) = strings_image (map z (params (concat gs))) dyn args ->
  ps_str s + zlen (strings_image (map z (params (concat gs))) dyn args) <= lim ->
  exists s' l pv, print_frags conv m lim fs s = Some s' /\ ps_text s' = ps_text s ++ text /\
    ps_pushed s' = ps_pushed s ++ pv /\ resolved (concat gs) (map promote args) = Some l /\ Forall2 gives l pv /\
    ps_str s' = ps_str s + zlen (strings_image (map z (params (concat gs))) dyn args).
Proof.
  intros z conv HZ. induction gs as [|g gs IH]; intros fs args text m lim s dyn HG Hok HF HR HN HL Hlim;
    inversion HG as [|? f ? fs' Hg HG']; subst; cbn [concat] in *.
  - inversion HF; subst. cbn in HR. injection HR as <-. exists s, [], [].
    cbn [print_frags]. rewrite !app_nil_r. splits; auto. cbn. lia.
  - rewrite params_app in *. rewrite fmt_ok_app in Hok. apply andb_true_iff in Hok. destruct Hok as [Hok1 Hok2].
    destruct (group_step z conv g f _ (concat gs) args text m lim s dyn HZ Hg Hok1 eq_refl HF HR HN HL Hlim)
      as (s1 & t1 & t2 & args' & dyn' & P1 & X1 & -> & R1 & (l1 & pv1 & U1 & V1 & W1) & F1 & N1 & L1 & Z1).
    destruct (IH fs' args' t2 m lim s1 dyn' HG' Hok2 F1 R1 N1 L1 ltac:(lia)) as (s2 & l2 & pv2 & P2 & X2 & U2 & V2 & W2 & Z2).
    exists s2, (l1 ++ l2), (pv1 ++ pv2). cbn [print_frags]. rewrite P1. split; [exact P2|].
    rewrite X2, X1, Z2, U2, U1, !app_assoc.
    split; [reflexivity|]. split; [reflexivity|]. split; [apply W1; exact V2|].
    split; [apply Forall2_app; assumption|lia].
Qed.

Lemma print_groups : forall conv gs fs args text m lim s dyn,
  Forall2 describes gs fs -> fmt_ok (concat gs) = true ->
  Forall2 arg_ok (params (concat gs)) args ->
  run conv (concat gs) (map promote args) = Some text ->
  nibbler_at m (ps_nb s) (pvals (map report (params (concat gs))) args) ->
  load m (ps_str s) (length (strings_image (params (concat gs)) dyn args)) = strings_image (params (concat gs)) dyn args ->
  ps_str s + zlen (strings_image (params (concat gs)) dyn args) <= lim ->
  exists s' l pv, print_frags conv m lim fs s = Some s' /\ ps_text s' = ps_text s ++ text /\
    ps_pushed s' = ps_pushed s ++ pv /\ resolved (concat gs) (map promote args) = Some l /\ Forall2 gives l pv /\
    ps_str s' = ps_str s + zlen (strings_image (params (concat gs)) dyn args).
Proof.
  intros conv gs fs args text m lim s dyn HG Hok HF HR HN HL Hlim.
  pose proof (print_groups_as (fun k => k) conv (fun k => or_introl eq_refl) gs fs args text m lim s dyn) as P.
  rewrite map_id in P. auto.
Qed.

(** A precision of 0 in the format not looked at. *)
Definition full (k : pclass) : pclass :=
  match k with KStr (Some n) => if n =? 0 then KStr None else k | _ => k end.

Lemma full_keeps : keeps full.
Proof.
  intros [| |[n|]| |]; try (left; reflexivity). cbn [full]. destruct (n =? 0) eqn:E; [|now left].
  assert (n = 0) as -> by lia. right. auto.
Qed.

(** Every statement printf accepts has a staged form. *)
Lemma run_image : forall conv ps args text dyn, fmt_ok ps = true -> Forall2 arg_ok (params ps) args ->
  run conv ps (map promote args) = Some text -> exists x, args_image (params ps) dyn args = Some x.
Proof.
  intros conv. induction ps as [|[c| |sp] ps IH]; intros args text dyn Hok HF HR.
  - inversion HF; subst. exists []. reflexivity.
  - cbn [run] in HR. destruct (run conv ps (map promote args)) eqn:E; [|discriminate].
    unfold fmt_ok in Hok. cbn [forallb] in Hok. apply andb_true_iff in Hok.
    apply (IH args l dyn); tauto.
  - cbn [run] in HR. destruct (run conv ps (map promote args)) eqn:E; [|discriminate].
    unfold fmt_ok in Hok. cbn [forallb] in Hok. apply andb_true_iff in Hok.
    apply (IH args l dyn); tauto.
  - cbn [run] in HR. unfold fmt_ok in Hok. cbn [forallb piece_ok] in Hok. apply andb_true_iff in Hok. destruct Hok as [Hsp Hok].
    change (params (Conv sp :: ps)) with (spec_params sp ++ params ps) in *.
    destruct (resolve sp (map promote args)) as [[rc vs']|] eqn:ER; [|discriminate].
    destruct (run conv ps vs') as [t2|] eqn:ER2; [|discriminate]. clear HR.
    pose proof (spec_class_kind sp Hsp) as SC. pose proof (spec_ok_inv _ Hsp) as (_ & _ & Hpo & _).
    unfold resolve in ER.
    (* the argument proper *)
    assert (LAST : forall a rest dyn1 po x, Forall2 arg_ok (spec_class sp :: params ps) (a :: rest) ->
      take sp po (promote a) = Some x -> (forall d, spec_class sp = KStrDyn -> po = d -> d = dyn1) ->
      (forall l, spec_class sp = KStr l -> l = po) -> run conv ps (map promote rest) = Some t2 ->
      exists y, args_image (spec_class sp :: params ps) dyn1 (a :: rest) = Some y).
    { intros a rest dyn1 po x HF1 TK D1 D2 R. inversion HF1 as [|? ? ? ? (Hw & Hf & Hkk & Hs & Hd) HF2]; subst.
      destruct (IH rest t2 dyn1 Hok HF2 R) as (y & EY).
      cbn [args_image].
      assert (SI : is_strk (spec_class sp) = true -> exists z, string_image po a = Some z).
      { intro B. specialize (Hs B). rewrite SC in B. unfold take in TK.
        destruct (conv_kind sp); try discriminate B; destruct a; try discriminate Hs; try discriminate TK;
          cbn [promote string_image] in *; destruct (visible po buf); try discriminate TK; eexists; reflexivity. }
      destruct (spec_class sp) as [| |l| |] eqn:EK.
      - exfalso. unfold spec_class in EK. destruct (sp_conv sp =? 115), (sp_prec sp); discriminate EK.
      - exfalso. unfold spec_class in EK. destruct (sp_conv sp =? 115), (sp_prec sp); discriminate EK.
      - destruct (SI eq_refl) as (z & EZ). rewrite (D2 l eq_refl), EZ. cbn [option_map]. rewrite EY. eexists; reflexivity.
      - destruct (SI eq_refl) as (z & EZ). rewrite (D1 po eq_refl eq_refl) in EZ. rewrite EZ. cbn [option_map]. rewrite EY. eexists; reflexivity.
      - rewrite EY. eexists; reflexivity. }
    (* the ints of the stars *)
    assert (PREC : forall args1 dyn1 po vs2, Forall2 arg_ok (pstar (sp_prec sp) ++ spec_class sp :: params ps) args1 ->
      take_prec (sp_prec sp) (map promote args1) = Some (po, vs2) ->
      match vs2 with [] => False | v :: vs3 => (exists x, take sp po v = Some x) /\ run conv ps vs3 = Some t2 end ->
      exists y, args_image (pstar (sp_prec sp) ++ spec_class sp :: params ps) dyn1 args1 = Some y).
    { intros args1 dyn1 po vs2 HF1 TP HV. unfold spec_class in LAST, HF1 |- *. destruct (sp_prec sp) as [|ds|]; cbn [pstar app take_prec] in *.
      - assert (po = None /\ vs2 = map promote args1) as (-> & ->) by (split; congruence).
        destruct args1 as [|a rest]; [destruct HV|]. cbn [map] in HV. destruct HV as [(x & TK) R].
        apply (LAST a rest dyn1 None x); auto; intros; destruct (sp_conv sp =? 115); congruence.
      - assert (po = Some (dec_val ds) /\ vs2 = map promote args1) as (-> & ->) by (split; congruence).
        destruct args1 as [|a rest]; [destruct HV|]. cbn [map] in HV. destruct HV as [(x & TK) R].
        apply (LAST a rest dyn1 (Some (dec_val ds)) x); auto; intros; destruct (sp_conv sp =? 115); congruence.
      - inversion HF1 as [|? a0 ? args2 (Hw & Hf & Hkk & Hs & Hd) HF2]; subst. cbn [map] in TP.
        destruct (take_int (promote a0)) as [n|] eqn:TI; [|discriminate].
        assert (po = (if n <? 0 then None else Some n) /\ vs2 = map promote args2) as (-> & ->) by (split; congruence).
        destruct args2 as [|a rest]; [destruct HV|]. cbn [map] in HV. destruct HV as [(x & TK) R].
        destruct (LAST a rest (if n <? 0 then None else Some n) _ x HF2 TK) as (y & EY); auto;
          try (intros; destruct (sp_conv sp =? 115); congruence).
        cbn [args_image]. rewrite TI. cbn [option_map]. cbn [args_image] in EY. rewrite EY. eexists; reflexivity. }
    unfold spec_params in *. fold (wstar (sp_width sp)) in *. fold (pstar (sp_prec sp)) in *.
    rewrite <- !app_assoc in *. change ([spec_class sp] ++ params ps) with (spec_class sp :: params ps) in *.
    destruct (take_width (sp_width sp) (map promote args)) as [[[extra wo] vs1]|] eqn:TW; [|discriminate].
    destruct (take_prec (sp_prec sp) vs1) as [[po vs2]|] eqn:TP; [|discriminate].
    destruct vs2 as [|v vs3]; [discriminate|]. destruct (take sp po v) as [x|] eqn:TK; [|discriminate].
    assert (vs3 = vs') as -> by congruence. clear ER.
    destruct (sp_width sp) as [|ds|]; cbn [wstar app take_width] in *.
    + assert (vs1 = map promote args) as -> by congruence. eapply PREC; eauto. cbn. eauto.
    + assert (vs1 = map promote args) as -> by congruence. eapply PREC; eauto. cbn. eauto.
    + inversion HF as [|? a0 ? args2 (Hw & Hf & Hkk & Hs & Hd) HF2]; subst. cbn [map] in TW.
      destruct (take_int (promote a0)) as [n|] eqn:TI; [|discriminate].
      assert (vs1 = map promote args2) as -> by (destruct (n <? 0); congruence).
      destruct (PREC args2 dyn po (v :: vs') HF2 TP) as (y & EY); [cbn; eauto|].
      cbn [args_image]. rewrite EY. eexists; reflexivity.
Qed.
