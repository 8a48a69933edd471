(** createMicroCode in memory: what it writes is what MicroCode.v says. *)
From Verif Require Import Base BaseProofs Packer PackerProofs LogHeader LogHeaderProofs Chars Fmt Regex MicroCode Args Printf Decode DecodeProofs
  Encoder Wire EncoderProofs Decoder FileSpec DecoderProofs Ordered MetaDict Prop_MetaDict PreprocLit MicroMem.

(** ** Writing *)

(** [m'] differs from [m] in the bytes from [a] to [b] at most. *)
Definition apart (m m' : mem) (a b : Z) : Prop := forall x, x < a \/ b <= x -> m' x = m x.

Lemma apart_refl : forall m a b, apart m m a b.
Proof. intros m a b x H. reflexivity. Qed.

Lemma apart_trans : forall m1 m2 m3 a b, apart m1 m2 a b -> apart m2 m3 a b -> apart m1 m3 a b.
Proof. intros m1 m2 m3 a b H1 H2 x H. rewrite H2, H1; auto. Qed.

Lemma apart_weak : forall m m' a b a' b', apart m m' a b -> a' <= a -> b <= b' -> apart m m' a' b'.
Proof. intros m m' a b a' b' H H1 H2 x Hx. apply H. lia. Qed.

Lemma put_ok : forall lim m a bs, 0 <= a -> a + zlen bs <= lim -> put lim m a bs = Some (store m a bs).
Proof. intros lim m a bs H1 H2. unfold put. replace ((0 <=? a) && (a + zlen bs <=? lim)) with true by lia. reflexivity. Qed.

Lemma store_apart : forall m a bs, apart m (store m a bs) a (a + zlen bs).
Proof. intros m a bs x H. now apply store_outside. Qed.

Lemma at_keep : forall m m' p l a b, at_ m p l -> apart m m' a b -> p + zlen l <= a \/ b <= p -> at_ m' p l.
Proof.
  intros m m' p l a b H K D. unfold at_ in *. rewrite <- H at 2. apply load_ext. intros x Hx. apply K. unfold zlen in D. lia.
Qed.

Lemma at_store : forall m p l, at_ (store m p l) p l.
Proof. intros. unfold at_. apply load_store_same. Qed.

Lemma at_nil : forall m p, at_ m p [].
Proof. intros. reflexivity. Qed.

Lemma at_cell : forall m p x, m p = x -> at_ m p [x].
Proof. intros m p x <-. reflexivity. Qed.

Lemma store_cell : forall m a x y, y <> a -> store m a [x] y = m y.
Proof. intros m a x y H. apply store_outside. change (zlen [x]) with 1. lia. Qed.

Lemma store_cell_same : forall m a x, store m a [x] a = x.
Proof. intros m a x. rewrite store_inside by (change (zlen [x]) with 1; lia). rewrite Z.sub_diag. reflexivity. Qed.

Lemma type_number_eq : forall t, type_number t = ftype_number t.
Proof. intros []; reflexivity. Qed.

Lemma pf_head_eq : forall old t dw dp, exists j,
  pf_head old t dw dp = ftype_number t + (if dw then 32 else 0) + (if dp then 64 else 0) + (if j : bool then 128 else 0).
Proof.
  intros old t dw dp. unfold pf_head. rewrite type_number_eq.
  assert (B : bf_get old 7 1 = 0 \/ bf_get old 7 1 = 1) by (unfold bf_get; change (2 ^ 1) with 2; lia).
  destruct B as [-> | ->]; [exists false | exists true]; lia.
Qed.

(** ** A match has two characters at least *)
Fixpoint re_min (r : re) : nat :=
  match r with
  | RChr _ | RPlus _ => 1
  | RSeq a b => re_min a + re_min b
  | RAlt a b => Nat.min (re_min a) (re_min b)
  | ROpt _ => 0
  | RGrp _ a => re_min a
  end.

Lemma rx_min : forall r s x, In x (rx r s) -> (re_min r <= length (rm_text x))%nat.
Proof.
  induction r as [f|a IHa b IHb|a IHa b IHb|a IHa|f|k a IHa]; intros s x Hin; cbn [rx re_min] in *.
  - destruct s as [|c s]; [destruct Hin|]. destruct (f c); [|destruct Hin]. destruct Hin as [<-|[]]. cbn; lia.
  - apply in_flat_map in Hin. destruct Hin as (y & Hy & Hin). apply in_map_iff in Hin. destruct Hin as (z & <- & Hz).
    apply IHa in Hy. apply IHb in Hz. cbn [rm_text]. rewrite app_length. lia.
  - apply in_app_iff in Hin. destruct Hin as [Hin|Hin]; [apply IHa in Hin|apply IHb in Hin]; lia.
  - lia.
  - destruct s as [|c s]; [destruct Hin|]. cbn [plus_all] in Hin. destruct (f c); [|destruct Hin].
    apply in_app_iff in Hin. destruct Hin as [Hin|[<-|[]]]; [|cbn; lia].
    apply in_map_iff in Hin. destruct Hin as (y & <- & _). cbn. lia.
  - apply in_map_iff in Hin. destruct Hin as (y & <- & Hy). cbn [rm_text]. eauto.
Qed.

Lemma spec_two : forall s g m t, rx_first spec_re s = Some (RM g m t) -> 2 <= zlen m.
Proof.
  intros s g m t H. assert (Hin : In (RM g m t) (rx spec_re s)).
  { unfold rx_first in H. destruct (rx spec_re s); [discriminate H|left; cbn [hd_error] in H; congruence]. }
  apply rx_min in Hin. change (re_min spec_re) with 2%nat in Hin. cbn [rm_text] in Hin. unfold zlen. lia.
Qed.

(** ** One fragment *)

Lemma write_fragment_spec : forall lim fm m pf t dw dp nib text c, Forall nonzero_byte text -> zlen text + 1 < 2 ^ 16 ->
  0 <= fm -> fm + 2 <= pf -> pf + 4 + zlen text <= lim ->
  exists m' j, write_fragment lim fm m pf t dw dp nib (to_u 16 (zlen text + 1)) (text ++ [c]) = Some (m', pf + 4 + zlen text) /\
    at_ m' pf (frag_bytes j (Frag t dw dp text)) /\
    (forall x, x < pf \/ pf + 4 + zlen text <= x -> x <> fm -> x <> fm + 1 -> m' x = m x) /\
    m' fm = (let n1 := if nib then to_u 8 (m fm + 1) else m fm in
             let n2 := if dw then to_u 8 (n1 + 1) else n1 in
             if dp then to_u 8 (n2 + 1) else n2) /\
    m' (fm + 1) = to_u 8 (m (fm + 1) + 1).
Proof.
  intros lim fm m pf t dw dp nib text c Ht Hn H0 H1 H2. pose proof (zlen_nonneg _ text) as Z0.
  unfold write_fragment. replace (to_u 16 (zlen text + 1)) with (zlen text + 1) by (unfold to_u; rewrite Z.mod_small; lia).
  destruct (pf_head_eq (m pf) t dw dp) as (j & Ej). set (h := pf_head (m pf) t dw dp) in *.
  set (ma := store m pf [h]). set (mb := store ma (pf + 1) (le_bytes 2 (zlen text + 1))).
  set (mc := store mb (pf + 3) (text ++ [c])). set (md := store mc (pf + 3 + (zlen text + 1) - 1) [0]).
  assert (E : puts lim m [(pf, [h]); (pf + 1, le_bytes 2 (zlen text + 1)); (pf + 3, text ++ [c]); (pf + 3 + (zlen text + 1) - 1, [0])] = Some md).
  { cbn [puts]. rewrite put_ok by (change (zlen [h]) with 1; lia). fold ma.
    rewrite put_ok by (rewrite ?le_bytes_zlen; lia). fold mb.
    rewrite put_ok by (rewrite ?zlen_app; change (zlen [c]) with 1; lia). fold mc.
    rewrite put_ok by (change (zlen [0]) with 1; lia). reflexivity. }
  rewrite E. clear E.
  assert (Amd : at_ md pf (frag_bytes j (Frag t dw dp text))).
  { unfold frag_bytes. cbn [fr_type fr_dw fr_dp fr_text]. rewrite <- Ej.
    assert (A1 : apart mc md (pf + 3 + zlen text) (pf + 4 + zlen text)).
    { eapply apart_weak; [apply store_apart|lia|change (zlen [0]) with 1; lia]. }
    assert (A2 : apart mb mc (pf + 3) (pf + 4 + zlen text)).
    { eapply apart_weak; [apply store_apart|lia|rewrite zlen_app; change (zlen [c]) with 1; lia]. }
    assert (A3 : apart ma mb (pf + 1) (pf + 3)).
    { eapply apart_weak; [apply store_apart|lia|rewrite le_bytes_zlen; lia]. }
    apply app_at; [|change (zlen [h]) with 1; apply app_at; [|rewrite le_bytes_zlen; replace (pf + 1 + Z.of_nat 2) with (pf + 3) by lia; apply app_at]].
    - eapply at_keep; [|exact A1|change (zlen [h]) with 1; lia]. eapply at_keep; [|exact A2|change (zlen [h]) with 1; lia].
      eapply at_keep; [apply at_store|exact A3|change (zlen [h]) with 1; lia].
    - eapply at_keep; [|exact A1|rewrite le_bytes_zlen; lia]. eapply at_keep; [apply at_store|exact A2|rewrite le_bytes_zlen; lia].
    - eapply at_keep; [|exact A1|lia]. pose proof (at_store mb (pf + 3) (text ++ [c])) as A. apply at_app in A. apply A.
    - unfold md. replace (pf + 3 + (zlen text + 1) - 1) with (pf + 3 + zlen text) by lia. apply at_store. }
  assert (Kmd : apart m md pf (pf + 4 + zlen text)).
  { intros x Hx. unfold md, mc, mb, ma.
    rewrite !store_outside; try reflexivity; rewrite ?zlen_app, ?le_bytes_zlen; change (zlen [c]) with 1; change (zlen [h]) with 1; change (zlen [0]) with 1; lia. }
  clearbody md. clear ma mb mc.
  assert (B : forall yes mm a, 0 <= a -> a + 1 <= lim ->
    exists mm', bump yes lim mm a = Some mm' /\ mm' a = (if yes then to_u 8 (mm a + 1) else mm a) /\ (forall x, x <> a -> mm' x = mm x)).
  { intros yes mm a Ha Hb. unfold bump. destruct yes.
    - rewrite put_ok by (auto; change (zlen [to_u 8 (mm a + 1)]) with 1; lia). eexists. split; [reflexivity|].
      split; [apply store_cell_same|]. intros x Hx. now apply store_cell.
    - eauto. }
  destruct (B nib md fm H0 ltac:(lia)) as (m2 & -> & V2 & K2).
  destruct (B dw m2 fm H0 ltac:(lia)) as (m3 & -> & V3 & K3).
  destruct (B dp m3 fm H0 ltac:(lia)) as (m4 & -> & V4 & K4).
  destruct (B true m4 (fm + 1) ltac:(lia) ltac:(lia)) as (m5 & -> & V5 & K5). cbn [option_map].
  assert (KK : forall x, x <> fm -> x <> fm + 1 -> m5 x = md x).
  { intros x X1 X2. rewrite K5, K4, K3, K2; auto. }
  exists m5, j. split; [f_equal; f_equal; lia|]. split; [|split; [|split]].
  - unfold at_ in *. rewrite <- Amd at 2. apply load_ext. intros x Hx. rewrite <- KK; auto; lia.
  - intros x X X1 X2. rewrite KK by auto. now apply Kmd.
  - rewrite K5 by lia. rewrite V4, V3, V2. rewrite (Kmd fm) by lia. reflexivity.
  - rewrite V5, K4, K3, K2 by lia. rewrite (Kmd (fm + 1)) by lia. reflexivity.
Qed.

(** ** The scan *)

Fixpoint laid (m : mem) (p : Z) (fs : list frag) : Prop :=
  match fs with
  | [] => True
  | f :: r => (exists j, at_ m p (frag_bytes j f)) /\ laid m (p + 4 + zlen (fr_text f)) r
  end.

Fixpoint size (fs : list frag) : Z :=
  match fs with
  | [] => 0
  | f :: r => 4 + zlen (fr_text f) + size r
  end.

Lemma size_app : forall a b, size (a ++ b) = size a + size b.
Proof. induction a as [|f a IH]; intros b; cbn [size app]; [lia|rewrite IH; lia]. Qed.

Lemma size_nonneg : forall fs, 0 <= size fs.
Proof. induction fs as [|f fs IH]; cbn [size]; [lia|]. pose proof (zlen_nonneg _ (fr_text f)). lia. Qed.

Lemma laid_app : forall m a p b, laid m p (a ++ b) <-> laid m p a /\ laid m (p + size a) b.
Proof.
  intros m. induction a as [|f a IH]; intros p b; cbn [laid size app].
  - rewrite Z.add_0_r. tauto.
  - rewrite IH. replace (p + 4 + zlen (fr_text f) + size a) with (p + (4 + zlen (fr_text f) + size a)) by lia. tauto.
Qed.

Lemma laid_keep : forall m m' fs p a b, laid m p fs -> apart m m' a b -> p + size fs <= a \/ b <= p -> laid m' p fs.
Proof.
  intros m m'. induction fs as [|f fs IH]; intros p a b H K D; cbn [laid size] in *; auto.
  pose proof (size_nonneg fs). pose proof (zlen_nonneg _ (fr_text f)). destruct H as [[j Hj] H]. split.
  - exists j. eapply at_keep; eauto. rewrite frag_zlen. lia.
  - eapply IH; eauto. lia.
Qed.

Lemma laid_bytes : forall m fs p, laid m p fs -> exists js, at_ m p (frags_bytes js fs) /\ zlen (frags_bytes js fs) = size fs.
Proof.
  intros m. induction fs as [|f fs IH]; intros p H; cbn [laid size frags_bytes] in *.
  - exists []. split; [apply at_nil|reflexivity].
  - destruct H as [[j Hj] H]. destruct (IH _ H) as (js & A & B). exists (j :: js). cbn [hd tl]. split.
    + apply app_at; auto. rewrite frag_zlen. replace (p + (4 + zlen (fr_text f))) with (p + 4 + zlen (fr_text f)) by lia. exact A.
    + rewrite zlen_app, frag_zlen, B. lia.
Qed.

(** The scan behind the end of the string. *)
Lemma micro_end : forall n lim fm fmt i start cp pf m pos, zlen fmt <= i ->
  micro_scan (S (S n)) lim fm fmt i start cp pf m pos = Some (m, Some (pos, start, pf)).
Proof.
  intros n lim fm fmt i start cp pf m pos H. pose proof (zlen_nonneg _ fmt). cbn [micro_scan].
  destruct (zlen fmt + 1 <=? i) eqn:E; [reflexivity|]. cbv zeta.
  assert (i = zlen fmt) by lia. subst i. 
  assert (X : nth (Z.to_nat (zlen fmt)) (fmt ++ [0]) 0 = 0).
  { unfold zlen. rewrite Nat2Z.id, app_nth2, Nat.sub_diag by lia. reflexivity. }
  rewrite !X.
  change (0 =? c_bsl) with false. change (negb (0 =? c_pct)) with true. cbv iota.
  replace (zlen fmt + 1 <=? zlen fmt + 1) with true by lia. reflexivity.
Qed.

Definition last_pf (p : Z) (fs : list frag) : option Z :=
  match fs with [] => None | _ => Some (p + size (removelast fs)) end.

Lemma last_pf_app : forall p fs f, last_pf p (fs ++ [f]) = Some (p + size fs).
Proof. intros p fs f. unfold last_pf. rewrite removelast_last. destruct fs; reflexivity. Qed.

Lemma nth_mid : forall (a : list Z) c r d, nth (Z.to_nat (zlen a)) ((a ++ c :: r) ++ [0]) d = c.
Proof. intros a c r d. unfold zlen. rewrite Nat2Z.id, <- app_assoc, app_nth2, Nat.sub_diag by lia. reflexivity. Qed.

Lemma skipn_mid : forall (a b : list Z), skipn (Z.to_nat (zlen a)) (a ++ b) = b.
Proof. intros a b. unfold zlen. rewrite Nat2Z.id, skipn_app, skipn_all, Nat.sub_diag. reflexivity. Qed.

Lemma slice_mid : forall (a b c : list Z) x, slice (zlen a) (zlen b + 1) ((a ++ b ++ c) ++ [x]) = b ++ firstn 1 (c ++ [x]).
Proof.
  intros a b c x. unfold slice. rewrite <- !app_assoc, skipn_mid.
  replace (Z.to_nat (zlen b + 1)) with (length b + 1)%nat by (unfold zlen; lia).
  rewrite firstn_app. rewrite firstn_all2 by lia. f_equal. f_equal. lia.
Qed.

Lemma scan_spec : forall lim fm fp fmt, Forall nonzero_byte fmt -> zlen fmt + 1 < 2 ^ 16 ->
  0 <= fm -> fm + 2 <= fp -> fp + 3 * zlen fmt <= lim ->
  forall fuel fuel' pre acc s cp frags nib cnt m,
  fmt = pre ++ acc ++ s -> (length s <= fuel)%nat -> (length s + 2 <= fuel')%nat ->
  laid m fp frags -> size frags <= 3 * zlen pre -> Forall frag_wf frags -> concat (map fr_text frags) = pre ->
  m fm = nib -> m (fm + 1) = cnt ->
  match mc_scan fuel s acc cp frags nib cnt with
  | None => exists m', micro_scan fuel' lim fm fmt (zlen pre + zlen acc) (zlen pre) cp (last_pf fp frags) m (fp + size frags)
                       = Some (m', None) /\
                       (forall x, x < fp \/ fp + 3 * zlen fmt <= x -> x <> fm -> x <> fm + 1 -> m' x = m x)
  | Some sc => exists m' start, micro_scan fuel' lim fm fmt (zlen pre + zlen acc) (zlen pre) cp (last_pf fp frags) m (fp + size frags)
                         = Some (m', Some (fp + size (sc_frags sc), zlen start, last_pf fp (sc_frags sc))) /\
                       (forall x, x < fp \/ fp + 3 * zlen fmt <= x -> x <> fm -> x <> fm + 1 -> m' x = m x) /\
                       fmt = start ++ sc_rest sc /\ laid m' fp (sc_frags sc) /\ size (sc_frags sc) <= 3 * zlen start /\
                       Forall frag_wf (sc_frags sc) /\ concat (map fr_text (sc_frags sc)) = start /\
                       m' fm = sc_nib sc /\ m' (fm + 1) = sc_cnt sc
  end.
Proof.
  intros lim fm fp fmt NZ LEN H0 H1 H2.
  assert (END : forall fuel' pre acc cp frags nib cnt m i, fmt = pre ++ acc -> zlen fmt <= i -> (2 <= fuel')%nat ->
    laid m fp frags -> size frags <= 3 * zlen pre -> Forall frag_wf frags -> concat (map fr_text frags) = pre -> m fm = nib -> m (fm + 1) = cnt ->
    exists m' start, micro_scan fuel' lim fm fmt i (zlen pre) cp (last_pf fp frags) m (fp + size frags)
                     = Some (m', Some (fp + size frags, zlen start, last_pf fp frags)) /\
                     (forall x, x < fp \/ fp + 3 * zlen fmt <= x -> x <> fm -> x <> fm + 1 -> m' x = m x) /\
                     fmt = start ++ acc /\ laid m' fp frags /\ size frags <= 3 * zlen start /\ Forall frag_wf frags /\ concat (map fr_text frags) = start /\
                     m' fm = nib /\ m' (fm + 1) = cnt).
  { intros fuel' pre acc cp frags nib cnt m i E Hi Hf HL HS HW HT Hn Hc. destruct fuel' as [|[|k]]; try lia.
    rewrite micro_end by exact Hi. exists m, pre. splits; auto. }
  induction fuel as [|fuel IH]; intros fuel' pre acc s cp frags nib cnt m E Hs Hf HL HS HW HT Hn Hc.
  { destruct s; [|cbn [length] in Hs; lia]. rewrite app_nil_r in E. cbn [mc_scan sc_frags sc_rest sc_nib sc_cnt].
    apply END; auto; try (rewrite E, zlen_app; lia); try (cbn [length] in Hf; lia). }
  destruct s as [|c r].
  { rewrite app_nil_r in E. cbn [mc_scan sc_frags sc_rest sc_nib sc_cnt].
    apply END; auto; try (rewrite E, zlen_app; lia); try (cbn [length] in Hf; lia). }
  destruct fuel' as [|fuel']; [cbn [length] in Hf; lia|]. cbn [length] in Hs, Hf.
  cbn [mc_scan micro_scan].
  assert (LI : zlen pre + zlen acc = zlen (pre ++ acc)) by (rewrite zlen_app; lia).
  assert (EF : fmt = (pre ++ acc) ++ c :: r) by (rewrite <- app_assoc; exact E).
  replace (zlen fmt + 1 <=? zlen pre + zlen acc) with false
    by (rewrite EF, LI, zlen_app, zlen_cons; pose proof (zlen_nonneg _ r); lia).
  cbv zeta. rewrite LI. 
  assert (X : nth (Z.to_nat (zlen (pre ++ acc))) (fmt ++ [0]) 0 = c) by (rewrite EF; apply nth_mid). rewrite !X. clear X.
  destruct (c =? c_bsl) eqn:Eb.
  - destruct r as [|x r].
    + cbn [tl firstn]. replace (mc_scan fuel [] (acc ++ [c]) cp frags nib cnt) with (Some (Scan frags (acc ++ [c]) nib cnt)) by (destruct fuel; reflexivity).
      cbn [sc_frags sc_rest sc_nib sc_cnt]. apply END; auto; try lia. rewrite EF, !zlen_app. change (zlen [c]) with 1. lia.
    + cbn [tl firstn]. specialize (IH fuel' pre (acc ++ [c; x]) r cp frags nib cnt m).
      replace (zlen (pre ++ acc) + 2) with (zlen pre + zlen (acc ++ [c; x])) by (rewrite !zlen_app; change (zlen [c; x]) with 2; lia).
      apply IH; auto; [rewrite E, <- !app_assoc; reflexivity|cbn [length] in Hs; lia|cbn [length] in Hf; lia].
  - destruct (negb (c =? c_pct)) eqn:Ep.
    + specialize (IH fuel' pre (acc ++ [c]) r 0 frags nib cnt m).
      replace (zlen (pre ++ acc) + 1) with (zlen pre + zlen (acc ++ [c])) by (rewrite !zlen_app; change (zlen [c]) with 1; lia).
      apply IH; auto; [rewrite E, <- !app_assoc; reflexivity|lia|lia].
    + replace (skipn (Z.to_nat (zlen (pre ++ acc))) fmt) with (c :: r) by (rewrite EF, skipn_mid; reflexivity).
      destruct (if (cp + 1) mod 2 =? 0 then None else rx_first spec_re (c :: r)) as [[g matched rest]|] eqn:Em.
      2: { specialize (IH fuel' pre (acc ++ [c]) r (cp + 1) frags nib cnt m).
           replace (zlen (pre ++ acc) + 1) with (zlen pre + zlen (acc ++ [c])) by (rewrite !zlen_app; change (zlen [c]) with 1; lia).
           apply IH; auto; [rewrite E, <- !app_assoc; reflexivity|lia|lia]. }
      assert (Em' : rx_first spec_re (c :: r) = Some (RM g matched rest)) by (destruct ((cp + 1) mod 2 =? 0); [discriminate Em|exact Em]).
      clear Em. pose proof (spec_two _ _ _ _ Em') as M2. destruct (spec_match _ _ _ _ Em') as [Mr _].
      destruct (getFormatType (group 5 g) (hd0 (group 6 g))) as [t|] eqn:Et.
      2: { exists m. split; [reflexivity|]. auto. }
      set (text := acc ++ matched).
      assert (EX : fmt = pre ++ text ++ rest) by (unfold text; rewrite <- app_assoc, Mr; exact E).
      replace (zlen (pre ++ acc) + zlen matched - zlen pre + 1) with (zlen text + 1) by (unfold text; rewrite !zlen_app; lia).
      assert (NT : Forall nonzero_byte text). { rewrite EX in NZ. apply Forall_app in NZ. destruct NZ as [_ NZ]. apply Forall_app in NZ. tauto. }
      assert (LT : zlen text + 1 < 2 ^ 16).
      { rewrite EX, !zlen_app in LEN. pose proof (zlen_nonneg _ pre). pose proof (zlen_nonneg _ rest). lia. }
      assert (LF : zlen fmt = zlen pre + zlen text + zlen rest) by (rewrite EX, !zlen_app; lia).
      assert (LTX : 2 <= zlen text) by (unfold text; rewrite zlen_app; pose proof (zlen_nonneg _ acc); lia).
      pose proof (zlen_nonneg _ rest) as LR. pose proof (zlen_nonneg _ pre) as LP. pose proof (size_nonneg frags) as LS.
      replace (slice (zlen pre) (to_u 16 (zlen text + 1)) (fmt ++ [0])) with (text ++ firstn 1 (rest ++ [0]))
        by (unfold to_u; rewrite Z.mod_small by lia; rewrite EX, slice_mid; reflexivity).
      assert (EC : exists y, firstn 1 (rest ++ [0]) = [y]) by (destruct rest; cbn; eauto). destruct EC as [y EC]. rewrite EC.
      destruct (write_fragment_spec lim fm m (fp + size frags) t (starts_star (group 2 g)) (starts_star (group 4 g))
                  (negb (hd0 (group 6 g) =? ch "s")) text y NT LT H0 ltac:(lia) ltac:(lia)) as (m' & j & -> & WA & WK & WN & WC).
      set (fr := Frag t (starts_star (group 2 g)) (starts_star (group 4 g)) text) in *.
      assert (SZ : size (frags ++ [fr]) = size frags + 4 + zlen text) by (rewrite size_app; cbn [size]; unfold fr; cbn [fr_text]; lia).
      assert (K1 : forall x, fp <= x < fp + size frags -> m' x = m x) by (intros x Hx; apply WK; lia).
      specialize (IH fuel' (pre ++ text) [] rest 0 (frags ++ [fr]) (m' fm) (m' (fm + 1)) m').
      rewrite SZ, last_pf_app in IH.
      replace (zlen (pre ++ text) + zlen []) with (zlen (pre ++ acc) + zlen matched) in IH by (unfold text; rewrite !zlen_app; change (zlen []) with 0; lia).
      replace (zlen (pre ++ text)) with (zlen (pre ++ acc) + zlen matched) in IH by (unfold text; rewrite !zlen_app; lia).
      replace (fp + (size frags + 4 + zlen text)) with (fp + size frags + 4 + zlen text) in IH by lia.
      rewrite WN, WC, Hn, Hc in IH. cbv zeta in IH.
      assert (LRST : (length rest < length (c :: r))%nat).
      { rewrite <- Mr, app_length. unfold zlen in M2. lia. }
      cbn [length] in LRST.
      assert (LLL : laid m' fp (frags ++ [fr])).
      { apply laid_app. split.
        - clear - HL K1. revert HL K1. generalize fp. induction frags as [|f fs IHf]; intros p HL K1; cbn [laid size] in *; auto.
          pose proof (size_nonneg fs). pose proof (zlen_nonneg _ (fr_text f)). destruct HL as [[j Hj] HL]. split.
          + exists j. unfold at_ in *. rewrite <- Hj at 2. apply load_ext. intros x Hx. symmetry. rewrite K1; auto.
            change (Z.of_nat (length (frag_bytes j f))) with (zlen (frag_bytes j f)) in Hx. rewrite frag_zlen in Hx. lia.
          + apply IHf; auto. intros x Hx. apply K1. lia.
        - cbn [laid]. split; [exists j; exact WA|exact I]. }
      assert (WFF : Forall frag_wf (frags ++ [fr])).
      { apply Forall_app. split; auto. constructor; auto. split; [exact NT|exact LT]. }
      specialize (IH ltac:(rewrite EX, <- app_assoc; reflexivity) ltac:(lia) ltac:(lia) LLL ltac:(rewrite ?zlen_app in *; unfold text in *; rewrite ?zlen_app in *; lia) WFF ltac:(rewrite map_app, concat_app, HT; unfold fr; cbn [map concat fr_text]; rewrite app_nil_r; reflexivity)).
      assert (OUT : forall x, x < fp \/ fp + 3 * zlen fmt <= x -> x <> fm -> x <> fm + 1 -> m' x = m x).
      { intros x Hx X1 X2. apply WK; auto. lia. }
      change (Frag t (starts_star (group 2 g)) (starts_star (group 4 g)) text) with fr.
      specialize (IH eq_refl eq_refl).
      destruct (mc_scan fuel rest [] 0 (frags ++ [fr]) _ _) as [sc|].
      * destruct IH as (m2 & start & A1 & A2 & A3 & A4 & A5 & A6 & A7 & A8 & A9). exists m2, start. splits; auto.
        intros x Hx X1 X2. rewrite A2, OUT; auto.
      * destruct IH as (m2 & A1 & A2). exists m2. split; auto. intros x Hx X1 X2. rewrite A2, OUT; auto.
Qed.

Lemma scan_counts : forall fuel s acc cp frags nib cnt sc, mc_scan fuel s acc cp frags nib cnt = Some sc ->
  0 <= nib < 256 -> cnt = zlen frags mod 256 -> 0 <= sc_nib sc < 256 /\ sc_cnt sc = zlen (sc_frags sc) mod 256.
Proof.
  induction fuel as [|fuel IH]; intros s acc cp frags nib cnt sc H Hn Hc.
  { cbn [mc_scan] in H. injection H as <-. cbn [sc_nib sc_cnt sc_frags]. auto. }
  destruct s as [|c r]; cbn [mc_scan] in H. { injection H as <-. cbn [sc_nib sc_cnt sc_frags]. auto. }
  destruct (c =? c_bsl); [eapply IH; eauto|]. destruct (negb (c =? c_pct)); [eapply IH; eauto|]. cbv zeta in H.
  destruct (if (cp + 1) mod 2 =? 0 then None else _) as [[g matched rest]|]; [|eapply IH; eauto].
  destruct (getFormatType _ _); [|discriminate H]. eapply IH; [exact H| |].
  - assert (U : forall x, 0 <= to_u 8 x < 256) by (intro x; unfold to_u; change (2 ^ 8) with 256; lia).
    destruct (starts_star (group 4 g)); [apply U|]. destruct (starts_star (group 2 g)); [apply U|].
    destruct (negb _); [apply U|exact Hn].
  - rewrite Hc, zlen_app. change (zlen [_]) with 1. unfold to_u. change (2 ^ 8) with 256. rewrite Zplus_mod_idemp_l. reflexivity.
Qed.

(** What the decompressor looks at: numPrintFragments fragments. *)
Definition visible (mc : microcode) : microcode :=
  MicroCode (mc_numNibbles mc) (mc_numFrags mc) (mc_level mc) (mc_line mc) (mc_file mc)
    (firstn (Z.to_nat (mc_numFrags mc)) (mc_frags mc)).

Lemma print_visible : forall conv mc m pos lim, print_message conv (visible mc) m pos lim = print_message conv mc m pos lim.
Proof.
  intros. unfold print_message, visible. cbn [mc_numNibbles mc_numFrags mc_frags]. now rewrite firstn_firstn, Nat.min_id.
Qed.

Definition room (filename fmt : list Z) : Z := 14 + zlen filename + 3 * zlen fmt.

Lemma laid_firstn : forall m p fs k, laid m p fs -> laid m p (firstn k fs) /\ size (firstn k fs) <= size fs.
Proof.
  intros m p fs k H. rewrite <- (firstn_skipn k fs) in H at 1. apply laid_app in H. split; [tauto|].
  rewrite <- (firstn_skipn k fs) at 2. rewrite size_app. pose proof (size_nonneg (skipn k fs)). lia.
Qed.

Lemma Forall_first : forall A (P : A -> Prop) k l, Forall P l -> Forall P (firstn k l).
Proof. intros A P k l H. rewrite <- (firstn_skipn k l) in H. apply Forall_app in H. tauto. Qed.

Definition header (level line : Z) (file : list Z) : list Z :=
  [level] ++ le_bytes 4 line ++ le_bytes 2 (zlen file + 1) ++ file ++ [0].

Lemma header_zlen : forall level line file, zlen (header level line file) = 8 + zlen file.
Proof. intros. unfold header. rewrite !zlen_app, !le_bytes_zlen. change (zlen [level]) with 1. change (zlen [0]) with 1. lia. Qed.

Lemma entry_laid : forall m fm mc, m fm = mc_numNibbles mc -> m (fm + 1) = mc_numFrags mc ->
  at_ m (fm + 2) (header (mc_level mc) (mc_line mc) (mc_file mc)) -> laid m (fm + 10 + zlen (mc_file mc)) (mc_frags mc) ->
  exists js, at_ m fm (meta_bytes (mc, js)) /\ zlen (meta_bytes (mc, js)) = 10 + zlen (mc_file mc) + size (mc_frags mc).
Proof.
  intros m fm mc H0 H1 H2 H3. destruct (laid_bytes _ _ _ H3) as (js & A & B). exists js. split.
  2: { rewrite meta_zlen. cbn [fst snd]. lia. }
  unfold meta_bytes. cbn [fst snd].
  change ([mc_numNibbles mc; mc_numFrags mc; mc_level mc] ++ le_bytes 4 (mc_line mc) ++ le_bytes 2 (zlen (mc_file mc) + 1) ++ (mc_file mc ++ [0]) ++ frags_bytes js (mc_frags mc))
    with ([mc_numNibbles mc] ++ [mc_numFrags mc] ++ [mc_level mc] ++ le_bytes 4 (mc_line mc) ++ le_bytes 2 (zlen (mc_file mc) + 1) ++ (mc_file mc ++ [0]) ++ frags_bytes js (mc_frags mc)).
  apply app_at; [now apply at_cell|]. change (zlen [_]) with 1. apply app_at; [now apply at_cell|]. change (zlen [_]) with 1.
  replace (fm + 1 + 1) with (fm + 2) by lia.
  replace ([mc_level mc] ++ le_bytes 4 (mc_line mc) ++ le_bytes 2 (zlen (mc_file mc) + 1) ++ (mc_file mc ++ [0]) ++ frags_bytes js (mc_frags mc))
    with (header (mc_level mc) (mc_line mc) (mc_file mc) ++ frags_bytes js (mc_frags mc)) by (unfold header; rewrite <- !app_assoc; reflexivity).
  apply app_at; auto. rewrite header_zlen. replace (fm + 2 + (8 + zlen (mc_file mc))) with (fm + 10 + zlen (mc_file mc)) by lia. exact A.
Qed.

Lemma extend_last_app : forall fs t w p x r, extend_last (fs ++ [Frag t w p x]) r = fs ++ [Frag t w p (x ++ r)].
Proof.
  induction fs as [|f fs IH]; intros; [reflexivity|]. cbn [app extend_last]. rewrite IH.
  destruct fs; cbn [app]; destruct f; reflexivity.
Qed.

(** Extending the last fragment, Log.cc:957-966. *)
Lemma frag_extend : forall m pf j t w p x rest m', at_ m pf (frag_bytes j (Frag t w p x)) ->
  m' = store (store m (pf + 3 + zlen x) (rest ++ [0])) (pf + 1) (le_bytes 2 (zlen x + (zlen rest + 1))) ->
  at_ m' pf (frag_bytes j (Frag t w p (x ++ rest))).
Proof.
  intros m pf j t w p x rest m' H ->. unfold frag_bytes in *. cbn [fr_type fr_dw fr_dp fr_text] in *.
  set (h := ftype_number t + _ + _ + _) in *.
  pose proof (zlen_nonneg _ x) as Zx. pose proof (zlen_nonneg _ rest) as Zr.
  apply at_app in H. destruct H as [Hh H]. change (zlen [h]) with 1 in H.
  apply at_app in H. destruct H as [_ H]. rewrite le_bytes_zlen in H. replace (pf + 1 + Z.of_nat 2) with (pf + 3) in H by lia.
  apply at_app in H. destruct H as [Hx _].
  set (m1 := store m (pf + 3 + zlen x) (rest ++ [0])).
  assert (A1 : apart m m1 (pf + 3 + zlen x) (pf + 4 + zlen x + zlen rest)).
  { eapply apart_weak; [apply store_apart|lia|rewrite zlen_app; change (zlen [0]) with 1; lia]. }
  assert (A2 : apart m1 (store m1 (pf + 1) (le_bytes 2 (zlen x + (zlen rest + 1)))) (pf + 1) (pf + 3)).
  { eapply apart_weak; [apply store_apart|lia|rewrite le_bytes_zlen; lia]. }
  apply app_at; [|change (zlen [h]) with 1; apply app_at; [|rewrite le_bytes_zlen; replace (pf + 1 + Z.of_nat 2) with (pf + 3) by lia]].
  - eapply at_keep; [|exact A2|change (zlen [h]) with 1; lia]. eapply at_keep; [exact Hh|exact A1|change (zlen [h]) with 1; lia].
  - replace (zlen (x ++ rest) + 1) with (zlen x + (zlen rest + 1)) by (rewrite zlen_app; lia). apply at_store.
  - eapply at_keep; [|exact A2|lia]. rewrite <- app_assoc. apply app_at.
    + eapply at_keep; [exact Hx|exact A1|lia].
    + apply at_store.
Qed.

Lemma create_spec : forall lim m fm fmt file line level,
  Forall nonzero_byte fmt -> zlen fmt + 1 < 2 ^ 16 -> Forall nonzero_byte file -> zlen file + 1 < 2 ^ 16 ->
  0 <= line < 2 ^ 32 -> 0 <= level < 256 -> 0 <= fm -> fm + room file fmt <= lim ->
  exists m' e ok, create_micro_code lim m fm fmt file line level = Some (m', e, ok) /\
    apart m m' fm (fm + room file fmt) /\
    match createMicroCode fmt file line level with
    | None => ok = false /\ e = fm
    | Some mc => ok = true /\ fm <= e <= fm + room file fmt /\ meta_wf (visible mc) /\
                 exists js, at_ m' fm (meta_bytes (visible mc, js)) /\ fm + zlen (meta_bytes (visible mc, js)) <= e
    end.
Proof.
  intros lim m fm fmt file line level NZ LEN NF LF HL HV H0 HR. unfold room in *.
  pose proof (zlen_nonneg _ fmt) as Z1. pose proof (zlen_nonneg _ file) as Z2.
  unfold create_micro_code.
  set (ws := [(fm + 2, [level]); _; _; _; _; _]).
  assert (P : exists m1, puts lim m ws = Some m1 /\ at_ m1 (fm + 2) (header level line file) /\ m1 fm = 0 /\ m1 (fm + 1) = 0 /\
                         apart m m1 fm (fm + 10 + zlen file)).
  { unfold ws. cbn [puts].
    set (l4 := le_bytes 4 line). assert (E4 : zlen l4 = 4) by apply le_bytes_zlen.
    set (l2 := le_bytes 2 (zlen file + 1)). assert (E2 : zlen l2 = 2) by apply le_bytes_zlen.
    assert (EF : zlen (file ++ [0]) = zlen file + 1) by (rewrite zlen_app; reflexivity).
    assert (E1 : forall x : Z, zlen [x] = 1) by reflexivity.
    rewrite put_ok by (rewrite ?E1; lia). rewrite put_ok by (rewrite ?E4; lia). rewrite put_ok by (rewrite ?E2; lia).
    rewrite put_ok by (rewrite ?EF; lia). rewrite put_ok by (rewrite ?E1; lia). rewrite put_ok by (rewrite ?E1; lia).
    eexists. split; [reflexivity|].
    set (a1 := store m (fm + 2) [level]). set (a2 := store a1 (fm + 3) l4). set (a3 := store a2 (fm + 7) l2).
    set (a4 := store a3 (fm + 9) (file ++ [0])). set (a5 := store a4 fm [0]).
    pose proof (store_apart m (fm + 2) [level]) as K1. rewrite E1 in K1. fold a1 in K1.
    pose proof (store_apart a1 (fm + 3) l4) as K2. rewrite E4 in K2. fold a2 in K2.
    pose proof (store_apart a2 (fm + 7) l2) as K3. rewrite E2 in K3. fold a3 in K3.
    pose proof (store_apart a3 (fm + 9) (file ++ [0])) as K4. rewrite EF in K4. fold a4 in K4.
    pose proof (store_apart a4 fm [0]) as K5. rewrite E1 in K5. fold a5 in K5.
    pose proof (store_apart a5 (fm + 1) [0]) as K6. rewrite E1 in K6. set (a6 := store a5 (fm + 1) [0]) in *.
    assert (K46 : apart a4 a6 fm (fm + 2)).
    { eapply apart_trans; eapply apart_weak; eauto; lia. }
    splits.
    - eapply at_keep; [|exact K46|rewrite header_zlen; lia]. unfold header. fold l4 l2.
      apply app_at; [|rewrite E1; apply app_at; [|rewrite E4; apply app_at; [|rewrite E2]]].
      + eapply at_keep; [|exact K4|rewrite E1; lia]. eapply at_keep; [|exact K3|rewrite E1; lia].
        eapply at_keep; [apply at_store|exact K2|rewrite E1; lia].
      + replace (fm + 2 + 1) with (fm + 3) by lia.
        eapply at_keep; [|exact K4|lia]. eapply at_keep; [apply at_store|exact K3|lia].
      + replace (fm + 2 + 1 + 4) with (fm + 7) by lia. eapply at_keep; [apply at_store|exact K4|lia].
      + replace (fm + 2 + 1 + 4 + 2) with (fm + 9) by lia. apply at_store.
    - rewrite K6 by lia. apply store_cell_same.
    - apply store_cell_same.
    - eapply apart_trans; [|eapply apart_weak; [exact K46|lia|lia]].
      eapply apart_trans; [|eapply apart_weak; [exact K4|lia|lia]]. eapply apart_trans; [|eapply apart_weak; [exact K3|lia|lia]].
      eapply apart_trans; [|eapply apart_weak; [exact K2|lia|lia]]. eapply apart_weak; [exact K1|lia|lia]. }
  destruct P as (m1 & -> & PH & P0 & P1 & PK). clear ws.
  replace (fm + 9 + zlen file + 1) with (fm + 10 + zlen file) by lia. set (fp := fm + 10 + zlen file) in *.
  pose proof (scan_spec lim fm fp fmt NZ LEN H0 ltac:(lia) ltac:(lia) (length fmt) (length fmt + 2) [] [] fmt 0 [] 0 0 m1
                eq_refl (Nat.le_refl _) (Nat.le_refl _) I ltac:(cbn; lia) (Forall_nil _) eq_refl P0 P1) as S.
  cbn [last_pf size] in S. change (zlen [] + zlen []) with 0 in S. change (zlen []) with 0 in S. rewrite Z.add_0_r in S.
  unfold createMicroCode.
  destruct (mc_scan (length fmt) fmt [] 0 [] 0 0) as [sc|] eqn:ES.
  2: { destruct S as (m2 & -> & K). exists m2, fm, false. splits; auto.
       intros x Hx. rewrite K by lia. apply PK. lia. }
  destruct (scan_counts _ _ _ _ _ _ _ _ ES ltac:(lia) eq_refl) as [CN CC].
  destruct S as (m2 & start & -> & K & FE & LA & SZ & WF & CT & N1 & N2).
  assert (PH2 : at_ m2 (fm + 2) (header level line file)).
  { unfold at_ in *. rewrite <- PH at 2. apply load_ext. intros x Hx.
    change (Z.of_nat (length (header level line file))) with (zlen (header level line file)) in Hx. rewrite header_zlen in Hx. apply K; lia. }
  assert (PK2 : apart m m2 fm (fm + (14 + zlen file + 3 * zlen fmt))).
  { intros x Hx. rewrite K by lia. apply PK. lia. }
  destruct (sc_frags sc) as [|f0 fs0] eqn:EFS; cbn [last_pf].
  - (* no specifier *)
    cbn [size] in *. rewrite Z.add_0_r. replace (zlen fmt + 1 <? 2 ^ 16) with true by lia.
    destruct (pf_head_eq (m2 fp) NONE false false) as (j & Ej). set (h := pf_head (m2 fp) NONE false false) in *.
    set (l2 := le_bytes 2 (zlen fmt + 1)). assert (E2 : zlen l2 = 2) by apply le_bytes_zlen.
    assert (EF : zlen (fmt ++ [0]) = zlen fmt + 1) by (rewrite zlen_app; reflexivity).
    assert (E1 : forall x : Z, zlen [x] = 1) by reflexivity.
    cbn [puts]. rewrite put_ok by (rewrite ?E1; lia). rewrite put_ok by (rewrite ?E1; lia). rewrite put_ok by (rewrite ?E2; lia).
    rewrite put_ok by (rewrite ?EF; lia). cbn [option_map].
    set (a1 := store m2 (fm + 1) [1]). set (a2 := store a1 fp [h]). set (a3 := store a2 (fp + 1) l2). set (a4 := store a3 (fp + 3) (fmt ++ [0])).
    pose proof (store_apart m2 (fm + 1) [1]) as K1. rewrite E1 in K1. fold a1 in K1.
    pose proof (store_apart a1 fp [h]) as K2. rewrite E1 in K2. fold a2 in K2.
    pose proof (store_apart a2 (fp + 1) l2) as K3. rewrite E2 in K3. fold a3 in K3.
    pose proof (store_apart a3 (fp + 3) (fmt ++ [0])) as K4. rewrite EF in K4. fold a4 in K4.
    assert (K14 : apart a1 a4 fp (fp + 4 + zlen fmt)).
    { eapply apart_trans; [|eapply apart_weak; [exact K4|lia|lia]]. eapply apart_trans; eapply apart_weak; eauto; lia. }
    exists a4, (fp + 3 + (zlen fmt + 1)), true. splits; auto.
    + intros x Hx. rewrite K14 by lia. rewrite K1 by lia. apply PK2. lia.
    + lia.
    + lia.
    + unfold visible. cbn [mc_numNibbles mc_numFrags mc_level mc_line mc_file mc_frags]. change (Z.to_nat 1) with 1%nat. cbn [firstn].
      repeat split; cbn [mc_numNibbles mc_numFrags mc_level mc_line mc_file mc_frags]; auto; try lia. constructor; [|constructor].
      split; [exact NZ|exact LEN].
    + unfold visible. cbn [mc_numNibbles mc_numFrags mc_level mc_line mc_file mc_frags]. change (Z.to_nat 1) with 1%nat. cbn [firstn].
      destruct (entry_laid a4 fm (MicroCode (sc_nib sc) 1 level line file [Frag NONE false false fmt])) as (js & A & B).
      * cbn [mc_numNibbles]. rewrite K14, K1 by lia. exact N1.
      * cbn [mc_numFrags]. rewrite K14 by lia. apply store_cell_same.
      * cbn [mc_level mc_line mc_file]. eapply at_keep; [|exact K14|rewrite header_zlen; lia]. eapply at_keep; [exact PH2|exact K1|lia].
      * cbn [mc_file mc_frags laid]. fold fp. split; [|exact I]. exists j. unfold frag_bytes. cbn [fr_type fr_dw fr_dp fr_text]. rewrite <- Ej. fold l2.
        apply app_at; [|rewrite E1; apply app_at; [|rewrite E2; replace (fp + 1 + 2) with (fp + 3) by lia; apply at_store]].
        -- eapply at_keep; [|exact K4|rewrite E1; lia]. eapply at_keep; [apply at_store|exact K3|rewrite E1; lia].
        -- eapply at_keep; [apply at_store|exact K4|lia].
      * exists js. split; [exact A|]. rewrite B. cbn [mc_file mc_frags size fr_text]. lia.
  - (* with specifiers *)
    assert (exists fs t w p x, f0 :: fs0 = fs ++ [Frag t w p x]) as (fs & t & w & p & x & EL).
    { destruct (exists_last (l := f0 :: fs0)) as (fs & [t w p x] & EL); [discriminate|]. exists fs, t, w, p, x. exact EL. }
    rewrite EL in *. rewrite extend_last_app. clear f0 fs0 EL EFS.
    rewrite removelast_last. rewrite size_app in *. cbn [size fr_text] in *. rewrite Z.add_0_r in *.
    apply laid_app in LA. destruct LA as [LA [[j LB] _]].
    set (pf := fp + size fs) in *. pose proof (size_nonneg fs) as SN. pose proof (zlen_nonneg _ x) as ZX.
    assert (ZS : zlen fmt = zlen start + zlen (sc_rest sc)) by (rewrite FE, zlen_app; lia).
    pose proof (zlen_nonneg _ (sc_rest sc)) as ZR.
    apply Forall_app in WF. destruct WF as [WF1 WF2]. assert (WF3 := Forall_inv WF2). destruct WF3 as [WT WL]. cbn [fr_text] in WT, WL.
    destruct (frag_head j _ m2 pf lim LB (conj WT WL)) as (_ & FLN & _); [rewrite frag_zlen; cbn [fr_text]; lia|].
    cbn [fr_text] in FLN. rewrite FLN.
    assert (TL : zlen x <= zlen start).
    { rewrite <- CT, map_app, concat_app, zlen_app. cbn [map concat fr_text]. rewrite app_nil_r.
      pose proof (zlen_nonneg _ (concat (map fr_text fs))). lia. }
    assert (NR : Forall nonzero_byte (x ++ sc_rest sc)).
    { apply Forall_app. split; auto. rewrite FE in NZ. apply Forall_app in NZ. tauto. }
    replace (zlen x + 1 - 1 + (zlen fmt + 1 - zlen start) <? 2 ^ 16) with true by lia.
    replace (skipn (Z.to_nat (zlen start)) (fmt ++ [0])) with (sc_rest sc ++ [0]) by (rewrite FE, <- app_assoc, skipn_mid; reflexivity).
    replace (pf + 3 + (zlen x + 1) - 1) with (pf + 3 + zlen x) by lia.
    replace (zlen x + 1 - 1 + (zlen fmt + 1 - zlen start)) with (zlen x + (zlen (sc_rest sc) + 1)) by lia.
    set (l2 := le_bytes 2 (zlen x + (zlen (sc_rest sc) + 1))). assert (E2 : zlen l2 = 2) by apply le_bytes_zlen.
    assert (EF : zlen (sc_rest sc ++ [0]) = zlen (sc_rest sc) + 1) by (rewrite zlen_app; reflexivity).
    cbn [puts]. rewrite put_ok by (rewrite ?EF; lia). rewrite put_ok by (rewrite ?E2; lia). cbn [option_map].
    set (a1 := store m2 (pf + 3 + zlen x) (sc_rest sc ++ [0])). set (a2 := store a1 (pf + 1) l2).
    pose proof (store_apart m2 (pf + 3 + zlen x) (sc_rest sc ++ [0])) as K1. rewrite EF in K1. fold a1 in K1.
    pose proof (store_apart a1 (pf + 1) l2) as K2. rewrite E2 in K2. fold a2 in K2.
    assert (K12 : apart m2 a2 pf (pf + 4 + zlen x + zlen (sc_rest sc))).
    { eapply apart_trans; eapply apart_weak; eauto; lia. }
    set (mc := MicroCode (sc_nib sc) (sc_cnt sc) level line file (fs ++ [Frag t w p (x ++ sc_rest sc)])).
    assert (WFA : Forall frag_wf (mc_frags mc)).
    { unfold mc. cbn [mc_frags]. apply Forall_app. split; auto. constructor; [|constructor]. split; cbn [fr_text]; auto. rewrite zlen_app. lia. }
    assert (LAA : laid a2 fp (mc_frags mc)).
    { unfold mc. cbn [mc_frags]. apply laid_app. split; [eapply laid_keep; [exact LA|exact K12|lia]|]. cbn [laid]. split; [|exact I].
      exists j. eapply frag_extend; [exact LB|]. reflexivity. }
    assert (SZA : size (mc_frags mc) = size fs + 4 + zlen x + zlen (sc_rest sc)).
    { unfold mc. cbn [mc_frags]. rewrite size_app. cbn [size fr_text]. rewrite zlen_app. lia. }
    assert (CNT : 0 <= sc_cnt sc < 256 /\ sc_cnt sc <= zlen (mc_frags mc)).
    { rewrite CC. replace (zlen (mc_frags mc)) with (zlen (fs ++ [Frag t w p x])) by (unfold mc; cbn [mc_frags]; rewrite !zlen_app; reflexivity).
      split; [apply Z.mod_pos_bound; lia|apply Z.mod_le; [apply zlen_nonneg|lia]]. }
    destruct (laid_firstn a2 fp (mc_frags mc) (Z.to_nat (sc_cnt sc)) LAA) as [LAV SZV].
    exists a2, (fp + (size fs + (4 + zlen x)) + (zlen fmt + 1 - zlen start)), true. splits; auto.
    + intros y Hy. rewrite K12 by lia. apply PK2. lia.
    + lia.
    + lia.
    + unfold visible. change (mc_numFrags mc) with (sc_cnt sc). cbn [mc_numNibbles mc_numFrags mc_level mc_line mc_file].
      assert (ZF : zlen (firstn (Z.to_nat (sc_cnt sc)) (mc_frags mc)) = sc_cnt sc).
      { unfold zlen in *. rewrite firstn_length. lia. }
      unfold meta_wf. cbn [mc_numNibbles mc_numFrags mc_level mc_line mc_file mc_frags]. rewrite ZF. fold mc.
      splits; auto; try (unfold mc; cbn [mc_numNibbles mc_level mc_line mc_file]; lia); try (unfold mc; cbn [mc_file]; assumption).
      apply Forall_first. exact WFA.
    + destruct (entry_laid a2 fm (visible mc)) as (js & A & B).
      * cbn [visible mc_numNibbles mc]. rewrite K12 by lia. exact N1.
      * cbn [visible mc_numFrags mc]. rewrite K12 by lia. exact N2.
      * cbn [visible mc_level mc_line mc_file mc]. eapply at_keep; [exact PH2|exact K12|rewrite header_zlen; lia].
      * cbn [visible mc_file mc_frags mc_numFrags]. exact LAV.
      * exists js. split; [exact A|]. rewrite B. cbn [visible mc_file mc_frags]. change (mc_numFrags mc) with (sc_cnt sc).
        change (mc_file mc) with file. lia.
Qed.
