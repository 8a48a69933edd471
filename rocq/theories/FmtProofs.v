(** The grammar of Fmt.v is unambiguous: the parser inverts the renderer. *)
From Verif Require Import Base BaseProofs Chars Fmt.

(** Case analysis on the membership of a character in a literal. *)
Ltac in_chars H :=
  unfold mem_char in H; apply existsb_exists in H;
  let c := fresh "c" in let Hin := fresh "Hin" in let He := fresh "He" in
  destruct H as (c & Hin & He); apply Z.eqb_eq in He; subst;
  repeat (destruct Hin as [Hin|Hin]; [subst|]); [..|destruct Hin].

Lemma span_app : forall f a b, forallb f a = true -> f (hd0 b) = false ->
  span f (a ++ b) = (a, b).
Proof.
  induction a; intros b Ha Hb.
  - cbn. destruct b; auto. cbn in Hb. cbn. now rewrite Hb.
  - cbn in *. apply andb_true_iff in Ha. destruct Ha as [H1 H2].
    rewrite H1, IHa by auto. reflexivity.
Qed.

Lemma zlist_eqb_eq : forall a b, zlist_eqb a b = true -> a = b.
Proof.
  induction a; destruct b; cbn; intros; try discriminate; auto.
  apply andb_true_iff in H. destruct H as [H1 H2].
  apply Z.eqb_eq in H1. f_equal; auto.
Qed.

Lemma mem_str_In : forall s l, mem_str s l = true -> In s l.
Proof.
  intros. unfold mem_str in H. apply existsb_exists in H.
  destruct H as (x & H1 & H2). apply zlist_eqb_eq in H2. now subst.
Qed.

Definition conv_chars := chars "diuoxXfFeEgGaAcsp".

(** Legal combinations, enumerated. *)
Lemma len_ok_conv : forall l c, len_ok l c = true -> mem_char c conv_chars = true.
Proof.
  intros l c H. unfold len_ok in H.
  destruct (mem_char c int_convs) eqn:E1; [in_chars E1; reflexivity|].
  destruct (mem_char c flt_convs) eqn:E2; [in_chars E2; reflexivity|].
  destruct (mem_char c (chars "cs")) eqn:E3; [in_chars E3; reflexivity|].
  destruct (mem_char c (chars "p")) eqn:E4; [in_chars E4; reflexivity|discriminate].
Qed.

Lemma len_ok_len : forall l c, len_ok l c = true ->
  In l [[]; chars "hh"; chars "h"; chars "ll"; chars "l"; chars "j"; chars "z"; chars "t"; chars "L"].
Proof.
  intros l c H. unfold len_ok in H.
  repeat match type of H with context [if ?b then _ else _] => destruct b end;
    try discriminate; apply mem_str_In in H; cbn in H |- *; intuition.
Qed.

Lemma parse_len_app : forall l c r, len_ok l c = true ->
  parse_len (l ++ c :: r) = (l, c :: r).
Proof.
  intros l c r H.
  pose proof (len_ok_len _ _ H) as Hl. pose proof (len_ok_conv _ _ H) as Hc. clear H.
  repeat (destruct Hl as [Hl|Hl]; [subst l; in_chars Hc; reflexivity|]). destruct Hl.
Qed.

(** The character after width and precision. *)
Definition tail_char (c : Z) : Prop :=
  mem_char c flag_chars = false /\ is_dig c = false /\ (c =? c_star) = false /\ (c =? c_dot) = false
  /\ (c =? c_pct) = false.

Lemma tail_len_conv : forall l c r, len_ok l c = true -> tail_char (hd0 (l ++ c :: r)).
Proof.
  intros l c r H.
  pose proof (len_ok_len _ _ H) as Hl. pose proof (len_ok_conv _ _ H) as Hc. clear H.
  repeat (destruct Hl as [Hl|Hl]; [subst l; in_chars Hc; repeat split; reflexivity|]).
  destruct Hl.
Qed.

Lemma parse_prec_app : forall p t, prec_ok p = true -> tail_char (hd0 t) ->
  parse_prec (render_prec p ++ t) = (p, t).
Proof.
  intros p t Hp (_ & Hd & Hs & Ho & _). unfold parse_prec.
  destruct p as [|ds|]; cbn [render_prec app].
  - now rewrite Ho.
  - cbn [hd0 hd tl]. change (c_dot =? c_dot) with true. cbv iota.
    cbn in Hp. rewrite (span_app is_dig) by auto.
    destruct ds as [|d ds]; cbn [app].
    + now rewrite Hs.
    + cbn [hd0 hd]. cbn in Hp. apply andb_true_iff in Hp. destruct Hp as [Hp _].
      replace (d =? c_star) with false; auto.
      unfold is_dig, c_star in *. lia.
  - reflexivity.
Qed.

Lemma prec_tail : forall p t, tail_char (hd0 t) ->
  mem_char (hd0 (render_prec p ++ t)) flag_chars = false /\
  is_dig (hd0 (render_prec p ++ t)) = false /\
  (hd0 (render_prec p ++ t) =? c_star) = false /\
  (hd0 (render_prec p ++ t) =? c_pct) = false.
Proof.
  intros p t (Hf & Hd & Hs & Ho & Hq). destruct p; cbn [render_prec app]; repeat split; auto.
Qed.

Lemma parse_width_app : forall w t, width_ok w = true ->
  is_dig (hd0 t) = false -> (hd0 t =? c_star) = false ->
  parse_width (render_width w ++ t) = (w, t).
Proof.
  intros w t Hw Hd Hs. unfold parse_width.
  destruct w as [|ds|]; cbn [render_width].
  - cbn [app]. rewrite Hs. change t with ([] ++ t) at 1. now rewrite span_app.
  - cbn in Hw. destruct ds as [|d ds]; [discriminate|].
    apply andb_true_iff in Hw. destruct Hw as [Hw _].
    cbn [app hd0 hd]. cbn [forallb] in Hw.
    replace (d =? c_star) with false by (unfold is_dig, c_star in *; lia).
    change (d :: ds ++ t) with ((d :: ds) ++ t). now rewrite span_app.
  - reflexivity.
Qed.

Lemma width_tail : forall w t, width_ok w = true ->
  mem_char (hd0 t) flag_chars = false -> (hd0 t =? c_pct) = false ->
  mem_char (hd0 (render_width w ++ t)) flag_chars = false /\
  (hd0 (render_width w ++ t) =? c_pct) = false.
Proof.
  intros w t Hw Hf Hp. destruct w as [|ds|]; cbn [render_width app]; auto.
  cbn in Hw. destruct ds as [|d ds]; [discriminate|]. cbn [app hd0 hd].
  cbn [forallb] in Hw. unfold flag_chars, mem_char, is_dig, c_pct in *.
  change (chars "-+ #0") with [45; 43; 32; 35; 48] in *. cbn [existsb]. lia.
Qed.

Lemma spec_ok_inv : forall sp, spec_ok sp = true ->
  forallb (fun c => mem_char c flag_chars) (sp_flags sp) = true /\
  width_ok (sp_width sp) = true /\ prec_ok (sp_prec sp) = true /\
  len_ok (sp_len sp) (sp_conv sp) = true.
Proof. intros. unfold spec_ok in H. rewrite !andb_true_iff in H. intuition. Qed.

Lemma parse_spec_app : forall sp r, spec_ok sp = true ->
  parse_spec (tl (render_spec sp) ++ r) = Some (sp, r).
Proof.
  intros sp r H. apply spec_ok_inv in H. destruct H as (Hf & Hw & Hp & Hl).
  unfold render_spec, parse_spec. cbn [tl].
  rewrite <- !app_assoc. cbn [app].
  pose proof (tail_len_conv _ _ r Hl) as Ht.
  destruct (prec_tail (sp_prec sp) _ Ht) as (P1 & P2 & P3 & P4).
  destruct (width_tail (sp_width sp) _ Hw P1 P4) as (W1 & W2).
  rewrite (span_app (fun c => mem_char c flag_chars)) by auto.
  rewrite parse_width_app by auto.
  rewrite parse_prec_app by auto.
  rewrite parse_len_app by auto. rewrite Hl. now destruct sp.
Qed.

(** No conversion starts like [%%]. *)
Lemma spec_second : forall sp r, spec_ok sp = true ->
  (hd0 (tl (render_spec sp) ++ r) =? c_pct) = false.
Proof.
  intros sp r H. apply spec_ok_inv in H. destruct H as (Hf & Hw & Hp & Hl).
  unfold render_spec. cbn [tl]. rewrite <- !app_assoc. cbn [app].
  pose proof (tail_len_conv _ _ r Hl) as Ht.
  destruct (prec_tail (sp_prec sp) _ Ht) as (P1 & P2 & P3 & P4).
  destruct (width_tail (sp_width sp) _ Hw P1 P4) as (W1 & W2).
  destruct (sp_flags sp) as [|f fl]; cbn [app]; auto.
  cbn [hd0 hd]. cbn [forallb] in Hf. apply andb_true_iff in Hf. destruct Hf as [Hf _].
  in_chars Hf; reflexivity.
Qed.

Lemma render_spec_cons : forall sp, render_spec sp = c_pct :: tl (render_spec sp).
Proof. reflexivity. Qed.

Lemma render_cons : forall p ps, render (p :: ps) = render_piece p ++ render ps.
Proof. reflexivity. Qed.

Lemma render_app : forall a b, render (a ++ b) = render a ++ render b.
Proof. intros. unfold render. now rewrite map_app, concat_app. Qed.

Lemma parse_fuel_render : forall ps n, fmt_ok ps = true -> (length (render ps) < n)%nat ->
  parse_fuel n (render ps) = Some ps.
Proof.
  induction ps as [|p ps IH]; intros n Hok Hn.
  - destruct n; [lia|]. reflexivity.
  - cbn [fmt_ok forallb] in Hok. apply andb_true_iff in Hok. destruct Hok as [Hp Hok].
    rewrite render_cons in *. rewrite app_length in Hn.
    destruct n; [lia|]. cbn [parse_fuel].
    destruct p as [c| |sp]; cbn [render_piece piece_ok] in *.
    + cbn [app]. apply andb_true_iff in Hp. destruct Hp as [H1 H2].
      apply negb_true_iff in H1, H2. rewrite H1, H2.
      rewrite IH; auto. cbn in Hn. lia.
    + cbn [app]. change (c_pct =? c_pct) with true. cbv iota. cbn [hd0 hd tl].
      change (c_pct =? c_pct) with true. cbv iota.
      rewrite IH; auto. cbn in Hn. lia.
    + rewrite render_spec_cons in *. cbn [app]. change (c_pct =? c_pct) with true. cbv iota.
      rewrite spec_second by auto. rewrite parse_spec_app by auto.
      rewrite IH; auto. cbn in Hn. lia.
Qed.

Theorem parse_render : forall ps, fmt_ok ps = true -> parse (render ps) = Some ps.
Proof. intros. apply parse_fuel_render; auto. Qed.

Theorem render_inj : forall a b, fmt_ok a = true -> fmt_ok b = true -> render a = render b -> a = b.
Proof.
  intros a b Ha Hb E. apply parse_render in Ha, Hb. rewrite E in Ha. congruence.
Qed.
