(** Proofs about the decompressor's reading of format strings. *)
From Verif Require Import Base BaseProofs Chars Fmt FmtProofs Regex MicroCode.

Definition first (r : re) (s : list Z) (g : caps) (a t : list Z) : Prop :=
  exists l, rx r s = RM g a t :: l.

Lemma first_rx : forall r s g a t, first r s g a t -> rx_first r s = Some (RM g a t).
Proof. intros r s g a t (l & E). unfold rx_first. now rewrite E. Qed.

Lemma first_seq : forall r1 r2 s g1 a1 t1 g2 a2 t2,
  first r1 s g1 a1 t1 -> first r2 t1 g2 a2 t2 -> first (RSeq r1 r2) s (g1 ++ g2) (a1 ++ a2) t2.
Proof.
  intros r1 r2 s g1 a1 t1 g2 a2 t2 (l1 & E1) (l2 & E2). unfold first. cbn [rx]. rewrite E1.
  cbn [flat_map rm_rest]. rewrite E2. cbn [map app]. eexists. reflexivity.
Qed.

Lemma first_opt_some : forall r s g a t, first r s g a t -> first (ROpt r) s g a t.
Proof. intros r s g a t (l & E). unfold first. cbn [rx]. rewrite E. eexists. reflexivity. Qed.

Lemma first_opt_none : forall r s, rx r s = [] -> first (ROpt r) s [] [] s.
Proof. intros r s E. unfold first. cbn [rx]. rewrite E. eexists. reflexivity. Qed.

Lemma first_alt_l : forall r1 r2 s g a t, first r1 s g a t -> first (RAlt r1 r2) s g a t.
Proof. intros r1 r2 s g a t (l & E). unfold first. cbn [rx]. rewrite E. eexists. reflexivity. Qed.

Lemma first_alt_r : forall r1 r2 s g a t, rx r1 s = [] -> first r2 s g a t -> first (RAlt r1 r2) s g a t.
Proof. intros r1 r2 s g a t E1 (l & E). unfold first. cbn [rx]. rewrite E1, E. eexists. reflexivity. Qed.

Lemma first_grp : forall k r s g a t, first r s g a t -> first (RGrp k r) s ((k, a) :: g) a t.
Proof. intros k r s g a t (l & E). unfold first. cbn [rx]. rewrite E. eexists. reflexivity. Qed.

Lemma first_plus : forall f a b, forallb f a = true -> a <> [] -> f (hd0 b) = false ->
  first (RPlus f) (a ++ b) [] a b.
Proof.
  intros f a b Ha Hn Hb. unfold first. cbn [rx].
  induction a as [|c a IH]; [congruence|].
  cbn [forallb] in Ha. apply andb_true_iff in Ha. destruct Ha as [H1 H2].
  cbn [app plus_all]. rewrite H1.
  destruct a as [|c' a].
  - cbn [app]. destruct b as [|x b]; cbn [plus_all map app].
    + eexists. reflexivity.
    + cbn [hd0 hd] in Hb. rewrite Hb. eexists. reflexivity.
  - destruct IH as (l & E); auto; [discriminate|]. rewrite E. cbn [map app]. eexists. reflexivity.
Qed.

Lemma plus_none : forall f s, f (hd0 s) = false -> plus_all f s = [].
Proof. intros f [|c s] H; cbn in *; auto. now rewrite H. Qed.

Lemma lit_first : forall c t, first (rlit c) (c :: t) [] [c] t.
Proof. intros. unfold first, rlit. cbn. rewrite Z.eqb_refl. eexists. reflexivity. Qed.

Lemma lit_none : forall c s, c <> 0 -> (hd0 s =? c) = false -> rx (rlit c) s = [].
Proof.
  intros c [|x s] Hc H; cbn in *; auto. rewrite Z.eqb_sym, H. reflexivity.
Qed.

(** Length modifier and conversion. *)
Definition len_re : re :=
  ROpt (RGrp 5 (ralts [chars "hh"; chars "h"; chars "l"; chars "ll"; chars "j";
                       chars "z"; chars "Z"; chars "t"; chars "L"])).
Definition conv_re : re := RGrp 6 (RChr (rset (chars "diuoxXfFeEgGaAcspn"))).

Definition len_caps (l : list Z) : caps := match l with [] => [] | _ => [(5, l)] end.

Lemma first_len_conv : forall l c r, len_ok l c = true ->
  first (RSeq len_re conv_re) (l ++ c :: r) (len_caps l ++ [(6, [c])]) (l ++ [c]) r.
Proof.
  intros l c r H.
  pose proof (len_ok_len _ _ H) as Hl. pose proof (len_ok_conv _ _ H) as Hc. clear H.
  repeat (destruct Hl as [Hl|Hl]; [subst l; in_chars Hc; eexists; cbn; reflexivity|]).
  destruct Hl.
Qed.

Definition nat_prec (p : prec) : bool := match p with PrNum [] => false | _ => true end.

Definition width_caps (w : width) : caps := match w with WNone => [] | _ => [(2, render_width w)] end.
Definition prec_caps (p : prec) : caps :=
  match p with
  | PrNone => []
  | PrNum ds => [(3, c_dot :: ds); (4, ds)]
  | PrStar => [(3, [c_dot; c_star]); (4, [c_star])]
  end.
Definition flag_caps (fl : list Z) : caps := match fl with [] => [] | _ => [(1, fl)] end.

Definition spec_caps (sp : spec) : caps :=
  [] ++ flag_caps (sp_flags sp) ++ width_caps (sp_width sp) ++ prec_caps (sp_prec sp)
     ++ len_caps (sp_len sp) ++ [(6, [sp_conv sp])].

Lemma first_spec : forall sp r, spec_ok sp = true -> nat_prec (sp_prec sp) = true ->
  first spec_re (render_spec sp ++ r) (spec_caps sp) (render_spec sp) r.
Proof.
  intros sp r H Hnp. apply spec_ok_inv in H. destruct H as (Hf & Hw & Hp & Hl).
  pose proof (tail_len_conv _ _ r Hl) as Ht.
  destruct (prec_tail (sp_prec sp) _ Ht) as (P1 & P2 & P3 & P4).
  destruct (width_tail (sp_width sp) _ Hw P1 P4) as (W1 & W2).
  destruct Ht as (T1 & T2 & T3 & T4 & T5).
  destruct sp as [fl w pr l c]; cbn [sp_flags sp_width sp_prec sp_len sp_conv] in *.
  unfold render_spec, spec_caps, spec_re; cbn [sp_flags sp_width sp_prec sp_len sp_conv].
  cbn [app]. rewrite <- !app_assoc. cbn [app].
  change (c_pct :: fl ++ render_width w ++ render_prec pr ++ l ++ [c])
    with ([c_pct] ++ fl ++ render_width w ++ render_prec pr ++ l ++ [c]).
  change (flag_caps fl ++ width_caps w ++ prec_caps pr ++ len_caps l ++ [(6, [c])])
    with ([] ++ flag_caps fl ++ width_caps w ++ prec_caps pr ++ len_caps l ++ [(6, [c])]).
  eapply first_seq; [apply lit_first|].
  eapply first_seq.
  { destruct fl as [|f fl].
    - cbn [app flag_caps]. apply first_opt_none. cbn [rx].
      rewrite plus_none; [reflexivity|]. exact W1.
    - cbn [flag_caps]. apply first_opt_some. apply first_grp. apply first_plus; auto; discriminate. }
  eapply first_seq.
  { destruct w as [|ds|]; cbn [width_caps render_width].
    - cbn [app]. apply first_opt_none. cbn [rx]. rewrite plus_none by auto.
      cbn [app]. fold (rlit c_star). rewrite lit_none by (auto; discriminate). reflexivity.
    - apply first_opt_some, first_grp, first_alt_l. cbn in Hw.
      destruct ds; [discriminate|]. apply andb_true_iff in Hw. destruct Hw as [Hw _].
      apply first_plus; auto; discriminate.
    - apply first_opt_some, first_grp. cbn [app]. apply first_alt_r; [|apply lit_first].
      reflexivity. }
  eapply first_seq.
  { destruct pr as [|ds|]; cbn [prec_caps render_prec].
    - cbn [app]. apply first_opt_none. cbn [rx]. rewrite lit_none by (auto; discriminate). reflexivity.
    - apply first_opt_some.
      apply (first_grp 3). change (c_dot :: ds) with ([c_dot] ++ ds).
      change [(4, ds)] with ([] ++ [(4, ds)]).
      eapply first_seq; [apply lit_first|]. apply first_grp, first_alt_l.
      cbn in Hp. destruct ds as [|d ds]; [discriminate|].
      apply (first_plus is_dig (d :: ds) (l ++ c :: r)); auto; discriminate.
    - apply first_opt_some.
      apply (first_grp 3). change [c_dot; c_star] with ([c_dot] ++ [c_star]).
      change [(4, [c_star])] with ([] ++ [(4, [c_star])]).
      eapply first_seq; [apply lit_first|]. apply first_grp. apply first_alt_r; [reflexivity|apply lit_first]. }
  now apply first_len_conv.
Qed.

Lemma dig_not_star : forall c, is_dig c = true -> (c =? c_star) = false.
Proof. unfold is_dig, c_star. intros. lia. Qed.

Lemma spec_groups : forall sp, spec_ok sp = true ->
  starts_star (group 2 (spec_caps sp)) = dyn_width sp /\ starts_star (group 4 (spec_caps sp)) = dyn_prec sp /\ group 5 (spec_caps sp) = sp_len sp /\ group 6 (spec_caps sp) = [sp_conv sp].
Proof.
  intros sp H. apply spec_ok_inv in H. destruct H as (_ & Hw & Hp & _).
  destruct sp as [fl w pr l c]; cbn [sp_flags sp_width sp_prec sp_len sp_conv] in *.
  unfold spec_caps, dyn_prec, dyn_width; cbn [sp_flags sp_width sp_prec sp_len sp_conv app].
  destruct fl, w as [|[|d ds]|], pr as [|[|e es]|], l; repeat split; try reflexivity;
    try discriminate Hw; cbn in Hw, Hp |- *;
    repeat match goal with
    | H : andb _ _ = true |- _ => apply andb_true_iff in H; destruct H
    end; try (apply dig_not_star; assumption).
Qed.

(** Types. *)
Definition kind_of (t : ftype) : option ckind :=
  match t with
  | NONE => None
  | unsigned_char_t | signed_char_t => Some (CkInt 1)
  | unsigned_short_int_t | short_int_t => Some (CkInt 2)
  | unsigned_int_t | wint_t_t | int_t => Some (CkInt 4)
  | unsigned_long_int_t | unsigned_long_long_int_t | uintmax_t_t | size_t_t
  | long_int_t | long_long_int_t | intmax_t_t | ptrdiff_t_t => Some (CkInt 8)
  | double_t => Some CkDouble
  | long_double_t => Some CkLongDouble
  | const_void_ptr_t => Some CkPtr
  | const_char_ptr_t => Some CkStr
  | const_wchar_t_ptr_t => Some CkWStr
  end.

Lemma getFormatType_ok : forall sp, spec_ok sp = true ->
  exists ty, getFormatType (sp_len sp) (sp_conv sp) = Some ty /\ kind_of ty = Some (conv_kind sp).
Proof.
  intros sp H. apply spec_ok_inv in H. destruct H as (_ & _ & _ & Hl).
  unfold conv_kind. destruct sp as [fl w pr l c]; cbn [sp_len sp_conv] in *. clear fl w pr.
  pose proof (len_ok_len _ _ Hl) as L. pose proof (len_ok_conv _ _ Hl) as C.
  repeat (destruct L as [L|L]; [subst l; in_chars C; (discriminate Hl || (eexists; split; vm_compute; reflexivity))|]).
  destruct L.
Qed.

(** The scan over a rendered format. *)
Fixpoint esc_ok (ps : list piece) : bool :=
  match ps with
  | [] => true
  | Lit c :: r =>
      if c =? c_bsl then match r with [] => true | Lit _ :: r' => esc_ok r' | _ => false end
      else esc_ok r
  | _ :: r => esc_ok r
  end.

Definition natural (ps : list piece) : bool := forallb (fun sp => nat_prec (sp_prec sp)) (convs ps).

Definition ftype_of (sp : spec) : ftype :=
  match getFormatType (sp_len sp) (sp_conv sp) with Some t => t | None => NONE end.

Fixpoint pfrags (acc : list Z) (ps : list piece) : list frag * list Z :=
  match ps with
  | [] => ([], acc)
  | Conv sp :: r =>
      let '(fs, t) := pfrags [] r in
      (Frag (ftype_of sp) (dyn_width sp) (dyn_prec sp) (acc ++ render_spec sp) :: fs, t)
  | p :: r => pfrags (acc ++ render_piece p) r
  end.

Definition nonstrings (ps : list piece) : Z := zlen (filter is_nonstring (params ps)).

Lemma to_u8_add : forall a b, to_u 8 (to_u 8 a + b) = to_u 8 (a + b).
Proof. intros. unfold to_u. now rewrite Zplus_mod_idemp_l. Qed.

Lemma spec_nib : forall sp n, spec_ok sp = true -> to_u 8 n = n ->
  (let n1 := if negb (sp_conv sp =? ch "s") then to_u 8 (n + 1) else n in
   let n2 := if dyn_width sp then to_u 8 (n1 + 1) else n1 in
   if dyn_prec sp then to_u 8 (n2 + 1) else n2)
  = to_u 8 (n + zlen (filter is_nonstring (spec_params sp))).
Proof.
  intros sp n H Hn. cbv zeta.
  assert (E : is_nonstring (spec_class sp) = negb (sp_conv sp =? ch "s")).
  { unfold spec_class. change (ch "s") with 115.
    destruct (sp_conv sp =? 115); [|reflexivity]. now destruct (sp_prec sp). }
  unfold spec_params, dyn_width, dyn_prec.
  destruct (sp_width sp), (sp_prec sp); cbn [app filter is_nonstring];
    rewrite ?E; destruct (sp_conv sp =? ch "s"); cbn [negb]; unfold zlen; cbn [length];
    rewrite ?to_u8_add; try (apply f_equal; lia); try (rewrite Z.add_0_r; congruence).
  rewrite <- Z.add_assoc, to_u8_add. apply f_equal. lia.
Qed.

Lemma length_render_piece : forall p, (1 <= length (render_piece p))%nat.
Proof. intros [c| |sp]; cbn; lia. Qed.

Lemma rx_pct_pct : forall r, rx_first spec_re (c_pct :: c_pct :: r) = None.
Proof. intros. reflexivity. Qed.

Lemma mc_scan_render : forall n ps fuel acc cp frags nib cnt,
  (length ps <= n)%nat ->
  fmt_ok ps = true -> esc_ok ps = true -> natural ps = true ->
  (length (render ps) <= fuel)%nat -> cp mod 2 = 0 -> to_u 8 nib = nib -> to_u 8 cnt = cnt ->
  mc_scan fuel (render ps) acc cp frags nib cnt =
  Some (Scan (frags ++ fst (pfrags acc ps)) (snd (pfrags acc ps))
         (to_u 8 (nib + nonstrings ps)) (to_u 8 (cnt + zlen (convs ps)))).
Proof.
  induction n as [|n IH]; intros ps fuel acc cp frags nib cnt Hn Hok He Hnat Hfu Hcp Hnib Hcnt.
  { destruct ps; [|cbn in Hn; lia]. cbn [render concat map pfrags fst snd convs].
    unfold nonstrings, zlen; cbn [params concat map filter length convs].
    rewrite app_nil_r, !Z.add_0_r, Hnib, Hcnt. destruct fuel; reflexivity. }
  destruct ps as [|p ps].
  { cbn [render concat map pfrags fst snd convs].
    unfold nonstrings, zlen; cbn [params concat map filter length convs].
    rewrite app_nil_r, !Z.add_0_r, Hnib, Hcnt. destruct fuel; reflexivity. }
  cbn [length] in Hn. rewrite render_cons in *. rewrite app_length in Hfu.
  unfold fmt_ok in Hok. cbn [forallb] in Hok. apply andb_true_iff in Hok. destruct Hok as [Hp Hok].
  fold (fmt_ok ps) in Hok.
  pose proof (length_render_piece p) as Lp.
  destruct fuel as [|fuel]; [lia|].
  destruct p as [c| |sp].
  - cbn [render_piece app length] in *. cbn [mc_scan].
    cbn [esc_ok] in He. cbn [pfrags render_piece convs].
    change (nonstrings (Lit c :: ps)) with (nonstrings ps).
    change (natural (Lit c :: ps)) with (natural ps) in Hnat.
    assert (Hc : (c =? c_pct) = false).
    { cbn [piece_ok] in Hp. unfold c_pct in *. lia. }
    rewrite Hc. cbn [negb].
    destruct (c =? c_bsl) eqn:Eb.
    + destruct ps as [|[c'| |sp'] ps]; try discriminate He.
      * cbn [render concat map tl firstn pfrags fst snd convs].
        unfold nonstrings, zlen; cbn [params concat map filter length convs].
        rewrite app_nil_r, !Z.add_0_r, Hnib, Hcnt. destruct fuel; reflexivity.
      * rewrite render_cons in *. cbn [render_piece app length tl firstn] in *.
        change (nonstrings (Lit c' :: ps)) with (nonstrings ps).
        change (natural (Lit c' :: ps)) with (natural ps) in Hnat.
        unfold fmt_ok in Hok. cbn [forallb] in Hok. apply andb_true_iff in Hok.
        rewrite IH; auto; try lia; try tauto.
        cbn [convs pfrags render_piece]. rewrite <- app_assoc. reflexivity.
    + rewrite IH; auto; lia.
  - cbn [render_piece app length] in *.
    change (chars "%%") with [c_pct; c_pct] in *. cbn [app length] in *.
    destruct fuel as [|fuel]; [lia|].
    cbn [esc_ok] in He. cbn [pfrags render_piece convs].
    change (nonstrings (Pct :: ps)) with (nonstrings ps).
    change (natural (Pct :: ps)) with (natural ps) in Hnat.
    cbn [mc_scan]. change (c_pct =? c_bsl) with false. change (c_pct =? c_pct) with true. cbn [negb].
    cbv iota zeta.
    replace ((cp + 1) mod 2 =? 0) with false by lia.
    rewrite rx_pct_pct.
    replace ((cp + 1 + 1) mod 2 =? 0) with true by lia.
    rewrite IH; auto; try lia.
    change (chars "%%") with [c_pct; c_pct].
    rewrite <- app_assoc. reflexivity.
  - cbn [render_piece] in *. cbn [piece_ok] in Hp.
    cbn [esc_ok] in He. unfold natural in Hnat. cbn [convs forallb] in Hnat.
    apply andb_true_iff in Hnat. destruct Hnat as [Hnp Hnat]. fold (natural ps) in Hnat.
    pose proof (first_rx _ _ _ _ _ (first_spec sp (render ps) Hp Hnp)) as Hrx.
    destruct (spec_groups sp Hp) as (G2 & G4 & G5 & G6).
    destruct (getFormatType_ok sp Hp) as (ty & Hty & _).
    remember (render_spec sp ++ render ps) as s eqn:Es.
    destruct s as [|c s].
    { unfold render_spec in Es. discriminate Es. }
    assert (c = c_pct) by (unfold render_spec in Es; apply (f_equal (hd 0)) in Es; exact Es). subst c.
    cbn [mc_scan]. change (c_pct =? c_bsl) with false. change (c_pct =? c_pct) with true. cbn [negb].
    cbv iota zeta.
    replace ((cp + 1) mod 2 =? 0) with false by lia.
    rewrite Hrx. rewrite G2, G4, G5, G6. cbn [hd0 hd]. rewrite Hty.
    pose proof (spec_nib sp nib Hp Hnib) as Nb. cbv zeta in Nb. rewrite Nb. clear Nb.
    rewrite IH; auto; try lia.
    + cbn [pfrags convs]. unfold ftype_of at 1. rewrite Hty.
      destruct (pfrags [] ps) as [fs t]; cbn [fst snd].
      rewrite <- app_assoc. cbn [app]. f_equal. f_equal.
      * rewrite to_u8_add. f_equal. unfold nonstrings, zlen.
        change (params (Conv sp :: ps)) with (spec_params sp ++ params ps). rewrite filter_app, app_length. lia.
      * rewrite to_u8_add. f_equal. unfold zlen. cbn [length]. lia.
    + unfold to_u. rewrite Z.mod_mod; lia.
    + unfold to_u. rewrite Z.mod_mod; lia.
Qed.

(** Fragments against pieces: [g] is the part of the format a fragment holds. *)
Definition describes (g : list piece) (f : frag) : Prop :=
  fr_text f = render g /\
  match convs g with
  | [] => fr_type f = NONE /\ fr_dw f = false /\ fr_dp f = false
  | [sp] => kind_of (fr_type f) = Some (conv_kind sp) /\ fr_dw f = dyn_width sp /\ fr_dp f = dyn_prec sp
  | _ => False
  end.

Lemma convs_app : forall a b, convs (a ++ b) = convs a ++ convs b.
Proof. induction a as [|[c| |sp] a IH]; intros b; cbn; rewrite ?IH; reflexivity. Qed.

(** Every group but the last ends with its conversion. *)
Definition ends_conv (g : list piece) : Prop := exists a sp, g = a ++ [Conv sp].
Fixpoint cut_ok (gs : list (list piece)) : Prop :=
  match gs with
  | [] => True
  | g :: r => (r <> [] -> ends_conv g) /\ cut_ok r
  end.

Lemma pfrags_groups : forall ps ap, fmt_ok ps = true -> convs ap = [] ->
  exists gs t, Forall ends_conv gs /\
    Forall2 describes gs (fst (pfrags (render ap) ps)) /\
    snd (pfrags (render ap) ps) = render t /\ convs t = [] /\
    concat gs ++ t = ap ++ ps /\ length gs = length (convs ps).
Proof.
  induction ps as [|p ps IH]; intros ap Hok Ha.
  - exists [], ap. cbn. rewrite app_nil_r. auto 10.
  - unfold fmt_ok in Hok. cbn [forallb] in Hok. apply andb_true_iff in Hok. destruct Hok as [Hp Hok].
    assert (Step : forall q, convs [q] = [] ->
      exists gs t, Forall ends_conv gs /\ Forall2 describes gs (fst (pfrags (render ap ++ render_piece q) ps)) /\
        snd (pfrags (render ap ++ render_piece q) ps) = render t /\ convs t = [] /\
        concat gs ++ t = ap ++ q :: ps /\ length gs = length (convs ps)).
    { intros q Hq. destruct (IH (ap ++ [q]) Hok) as (gs & t & H).
      - now rewrite convs_app, Ha, Hq.
      - rewrite render_app in H. change (render [q]) with (render_piece q ++ []) in H.
        rewrite app_nil_r, <- app_assoc in H. cbn [app] in H. exists gs, t. exact H. }
    destruct p as [c| |sp].
    + destruct (Step (Lit c) eq_refl) as (gs & t & H). exists gs, t. exact H.
    + destruct (Step Pct eq_refl) as (gs & t & H). exists gs, t. exact H.
    + destruct (IH [] Hok eq_refl) as (gs & t & He & HF & Ht & Hc & Hcat & Hlen).
      change (render []) with (@nil Z) in *.
      cbn [pfrags]. destruct (pfrags [] ps) as [fs x] eqn:E. cbn [fst snd] in *.
      exists ((ap ++ [Conv sp]) :: gs), t.
      split; [constructor; [exists ap, sp; reflexivity|exact He]|]. repeat split; auto.
      * constructor; auto. unfold describes. cbn [fr_text fr_type fr_dw fr_dp].
        rewrite render_app, convs_app, Ha. cbn [convs app]. repeat split.
        -- change (render [Conv sp]) with (render_spec sp ++ []). now rewrite app_nil_r.
        -- unfold ftype_of. destruct (getFormatType_ok sp Hp) as (ty & -> & Hk). exact Hk.
      * cbn [concat]. rewrite <- !app_assoc. cbn [app]. rewrite Hcat. reflexivity.
      * cbn [length convs]. lia.
Qed.

Lemma extend_last_groups : forall fs gs t, fs <> [] -> Forall2 describes gs fs -> convs t = [] ->
  exists gs', Forall2 describes gs' (extend_last fs (render t)) /\ concat gs' = concat gs ++ t /\
    (Forall ends_conv gs -> cut_ok gs').
Proof.
  induction fs as [|f fs IH]; intros gs t Hn HF Ht; [congruence|].
  inversion HF as [|g f' gs' fs' Hg HF']; subst.
  destruct fs as [|f2 fs].
  - inversion HF'; subst. destruct f as [ty w p x].
    exists [g ++ t]. cbn [extend_last concat]. rewrite !app_nil_r.
    split; [|split; [reflexivity|intros _; cbn [cut_ok]; split; [congruence|exact I]]].
    constructor; [|constructor]. destruct Hg as (Hx & Hg). unfold describes in *.
    cbn [fr_text fr_type fr_dw fr_dp] in *. rewrite render_app, convs_app, Ht, app_nil_r.
    split; [congruence|exact Hg].
  - destruct (IH gs' t) as (gs2 & H1 & H2 & H3); auto; [discriminate|].
    exists (g :: gs2). cbn [concat]. rewrite <- app_assoc, <- H2.
    split; [|split; [reflexivity|intro He; inversion He; subst; cbn [cut_ok]; split; auto]].
    destruct f as [ty w p x].
    change (extend_last (Frag ty w p x :: f2 :: fs) (render t))
      with (Frag ty w p x :: extend_last (f2 :: fs) (render t)).
    constructor; auto.
Qed.

Lemma extend_last_length : forall fs r, length (extend_last fs r) = length fs.
Proof.
  induction fs as [|[ty w p x] fs IH]; intros r; [reflexivity|].
  destruct fs as [|f2 fs]; [reflexivity|].
  change (extend_last (Frag ty w p x :: f2 :: fs) r)
    with (Frag ty w p x :: extend_last (f2 :: fs) r).
  cbn [length]. now rewrite IH.
Qed.

Lemma Forall2_len : forall A B (R : A -> B -> Prop) l l', Forall2 R l l' -> length l = length l'.
Proof. induction 1; cbn; congruence. Qed.

Lemma createMicroCode_render : forall ps file line level,
  fmt_ok ps = true -> esc_ok ps = true -> natural ps = true ->
  zlen (convs ps) <= 255 -> nonstrings ps <= 255 ->
  exists mc gs, createMicroCode (render ps) file line level = Some mc /\
    mc_numNibbles mc = nonstrings ps /\
    concat gs = ps /\ Forall2 describes gs (mc_frags mc) /\
    mc_numFrags mc = zlen (mc_frags mc) /\ mc_numFrags mc = Z.max 1 (zlen (convs ps)) /\
    mc_level mc = level /\ mc_line mc = line /\ mc_file mc = file.
Proof.
  intros ps file line level Hok He Hn Hc Hs. unfold createMicroCode.
  rewrite (mc_scan_render (length ps)) by auto.
  cbn [sc_frags sc_rest sc_nib sc_cnt app]. rewrite !Z.add_0_l.
  destruct (pfrags_groups ps [] Hok eq_refl) as (gs & t & _ & HF & Ht & Hct & Hcat & Hlen).
  change (render []) with (@nil Z) in *. cbn [app] in Hcat.
  assert (Hu1 : to_u 8 (nonstrings ps) = nonstrings ps).
  { unfold to_u. apply Z.mod_small. unfold nonstrings, zlen in *. lia. }
  assert (Hu2 : to_u 8 (zlen (convs ps)) = zlen (convs ps)).
  { unfold to_u. apply Z.mod_small. unfold zlen in *. lia. }
  rewrite Hu1, Hu2.
  pose proof (Forall2_len _ _ _ _ _ HF) as HL.
  destruct (fst (pfrags [] ps)) as [|f fs] eqn:E.
  - destruct gs; [|discriminate HL]. cbn [concat app] in Hcat. subst t.
    eexists. exists [ps]. split; [reflexivity|].
    cbn [mc_numNibbles mc_numFrags mc_level mc_line mc_file mc_frags concat].
    rewrite app_nil_r, Hct. repeat split; auto.
    constructor; [|constructor]. unfold describes. rewrite Hct. repeat split; reflexivity.
  - destruct (extend_last_groups (f :: fs) gs t) as (gs' & H1 & H2 & _); auto; [discriminate|].
    rewrite <- Ht in *.
    eexists. exists gs'. split; [reflexivity|].
    cbn [mc_numNibbles mc_numFrags mc_level mc_line mc_file mc_frags].
    rewrite H2, Hcat.
    split; [reflexivity|]. split; [reflexivity|]. split; [exact H1|].
    unfold zlen. rewrite extend_last_length. cbn [length] in *. repeat split; lia.
Qed.
