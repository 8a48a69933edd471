(** C10, C11: what a log statement leaves in the staging buffer. *)
From Verif Require Import Base BaseProofs Packer PackerProofs Chars Fmt FmtProofs FmtLax FrontFmt FrontFmtProofs
  Prop_FrontFmt Args Printf ArgsProofs.

(** C10.  Whatever the classification and the arguments, if recording goes
    through then the cursor ends exactly at the end of the reservation, nothing
    outside the reservation is written, and the header holds the id, the size and
    the time. *)
Theorem C10_space_exact : forall types args m p id ts r,
  log_record m p id ts types args = Some r ->
  lr_end r = p + lr_alloc r /\ 16 <= lr_alloc r /\
  (forall x, x < p \/ p + lr_alloc r <= x -> lr_mem r x = m x) /\
  load (lr_mem r) p 4 = le_bytes 4 id /\
  load (lr_mem r) (p + 4) 4 = le_bytes 4 (lr_alloc r) /\
  load (lr_mem r) (p + 8) 8 = le_bytes 8 ts.
Proof.
  intros types args m p id ts r H. unfold log_record in H.
  destruct (getArgSizes types (2 ^ 64 - 1) args) as [[n ns]|] eqn:EG; [|discriminate].
  destruct (store_arguments m (p + 16) types ns args) as [[m1 e]|] eqn:ES; [|discriminate].
  assert (R : r = LogRec
    (store (store (store m1 p (le_bytes 4 id)) (p + 8) (le_bytes 8 ts)) (p + 4) (le_bytes 4 (to_u 32 (n + 16))))
    (n + 16) e) by congruence.
  subst r. cbn [lr_mem lr_alloc lr_end].
  destruct (store_arguments_imgs types args (2 ^ 64 - 1) m (p + 16) n ns m1 e ltac:(lia) EG ES) as (M & -> & N).
  pose proof (zlen_nonneg _ (imgs types ns args)).
  split; [lia|]. split; [lia|]. split; [|split; [|split]].
  - intros x Hx. rewrite !store_outside by (rewrite ?le_bytes_zlen; lia).
    rewrite M. apply store_outside. lia.
  - rewrite !load_store_disjoint by (rewrite ?le_bytes_zlen; lia).
    apply (load_store_same m1 p (le_bytes 4 id)).
  - change (to_u 32 (n + 16)) with ((n + 16) mod 256 ^ Z.of_nat 4). rewrite le_bytes_mod.
    apply (load_store_same _ (p + 4) (le_bytes 4 (n + 16))).
  - rewrite load_store_disjoint by (rewrite ?le_bytes_zlen; lia).
    apply (load_store_same _ (p + 8) (le_bytes 8 ts)).
Qed.
Print Assumptions C10_space_exact.

Example C10_instance :
  let args := [AInt (Ity true 4) 2; AStr 1000 [104; 105; 106; 0; 9]; AWStr 8 [65; 66; 0]; AFlt [1; 2; 3; 4; 5; 6; 7; 8]] in
  match log_record (fun _ => 0) 100 7 99 [-4; -2; -1; -3] args with
  | Some r => lr_alloc r = 16 + 4 + (4 + 2) + (4 + 8) + 8 /\ lr_end r = 146 /\
              load (lr_mem r) 116 10 = [2; 0; 0; 0; 2; 0; 0; 0; 104; 105]
  | None => False
  end.
Proof. vm_compute. auto. Qed.

(** C11.  Specification: the staged form of the arguments of a statement with
    parameter classes [ks].  A string is stored as its length in bytes followed
    by exactly the characters printf may look at ([visible], Printf.v); [dyn] is
    the precision given by the latest [.*] argument ([None]: negative, or none). *)
Definition string_image (lim : option Z) (a : arg) : option (list Z) :=
  match a with
  | AStr _ buf => option_map (fun s => le_bytes 4 (zlen s) ++ s) (visible lim buf)
  | AWStr _ buf => option_map (fun s => le_bytes 4 (4 * zlen s) ++ flat_map (le_bytes 4) s) (visible lim buf)
  | _ => None
  end.

Fixpoint args_image (ks : list pclass) (dyn : option Z) (args : list arg) : option (list Z) :=
  match ks, args with
  | [], [] => Some []
  | k :: ks', a :: r =>
    match
      match k with
      | KStr lim => option_map (fun x => (x, dyn)) (string_image lim a)
      | KStrDyn => option_map (fun x => (x, dyn)) (string_image dyn a)
      | KPrec => option_map (fun n => (obj_bytes a, if n <? 0 then None else Some n)) (take_int (promote a))
      | _ => Some (obj_bytes a, dyn)
      end
    with
    | None => None
    | Some (x, dyn') => option_map (app x) (args_image ks' dyn' r)
    end
  | _, _ => None
  end.

(** Terminated strings shorter than 2 GiB. *)
Definition string_fits (a : arg) : Prop :=
  match a with
  | AStr _ buf => up_to_nul buf <> None /\ zlen buf <= 2 ^ 31
  | AWStr _ buf => up_to_nul buf <> None /\ zlen buf <= 2 ^ 29
  | _ => True
  end.

Definition class_ok (k : pclass) : Prop :=
  match k with KStr (Some n) => 0 <= n < 2 ^ 31 | _ => True end.

(** The compressed form of the strings: the same characters and a terminator. *)
Fixpoint strings_image (ks : list pclass) (dyn : option Z) (args : list arg) : list Z :=
  match ks, args with
  | k :: ks', a :: r =>
    let out lim :=
      match a with
      | AStr _ buf => match visible lim buf with Some s => s ++ [0] | None => [] end
      | AWStr _ buf => match visible lim buf with Some s => flat_map (le_bytes 4) s ++ [0; 0; 0; 0] | None => [] end
      | _ => []
      end in
    match k with
    | KStr lim => out lim ++ strings_image ks' dyn r
    | KStrDyn => out dyn ++ strings_image ks' dyn r
    | KPrec => strings_image ks' (match take_int (promote a) with
                                  | Some n => if n <? 0 then None else Some n
                                  | None => None end) r
    | _ => strings_image ks' dyn r
    end
  | _, _ => []
  end.

Definition prec_match (prev : Z) (dyn : option Z) : Prop :=
  match dyn with None => 2 ^ 31 <= prev | Some n => prev = n /\ 0 <= n end.

Definition cut_at (lim : option Z) (len : Z) : Z :=
  match lim with None => len | Some n => Z.min n len end.

Lemma limit_len_static : forall lim prev len, class_ok (KStr lim) -> 0 <= len ->
  limit_len (report (KStr lim)) prev len = cut_at lim len.
Proof.
  intros [n|] prev len Hk Hl; unfold limit_len, cut_at; cbn [report class_ok] in *.
  - rewrite to_u_id by lia. unfold PT_STRING_WITH_DYNAMIC_PRECISION.
    replace (0 <=? n) with true by lia. cbn [andb]. destruct (n <? len) eqn:E; [lia|].
    replace (n =? -2) with false by lia. cbn [andb]. lia.
  - unfold PT_STRING_WITH_DYNAMIC_PRECISION, PT_STRING_WITH_NO_PRECISION. reflexivity.
Qed.

Lemma limit_len_dyn : forall prev dyn len, prec_match prev dyn -> 0 <= len < 2 ^ 31 ->
  limit_len (report KStrDyn) prev len = cut_at dyn len.
Proof.
  intros prev dyn len Hm Hl. unfold limit_len, cut_at; cbn [report].
  unfold PT_STRING_WITH_DYNAMIC_PRECISION. change (0 <=? -2) with false. change (-2 =? -2) with true. cbn [andb].
  destruct dyn as [n|]; cbn [prec_match] in Hm; destruct (prev <? len) eqn:E; lia.
Qed.

Lemma visible_terminated : forall lim buf s, up_to_nul buf = Some s -> (forall n, lim = Some n -> 0 <= n) ->
  visible lim buf = Some (firstn (Z.to_nat (cut_at lim (zlen s))) buf) /\
  zlen (firstn (Z.to_nat (cut_at lim (zlen s))) buf) = cut_at lim (zlen s) /\ zlen s < zlen buf.
Proof.
  intros lim buf s H Hn.
  assert (L : zlen s < zlen buf).
  { apply (strlen_bound buf). now rewrite strlen_up_to_nul, H. }
  pose proof (up_to_nul_firstn _ _ H) as E. pose proof (zlen_nonneg _ s).
  unfold visible, cut_at. destruct lim as [n|].
  - specialize (Hn n eq_refl). rewrite H. split; [|split; [|exact L]].
    + f_equal. rewrite E at 1. rewrite firstn_firstn. f_equal. unfold zlen in *. lia.
    + unfold zlen in *. rewrite firstn_length. lia.
  - split; [|split; [|exact L]].
    + rewrite H. f_equal. rewrite E at 1. f_equal. unfold zlen. lia.
    + unfold zlen in *. rewrite firstn_length. lia.
Qed.

Lemma firstn_wbytes : forall k ws, firstn (4 * k) (wbytes ws) = wbytes (firstn k ws).
Proof.
  induction k as [|k IH]; intros [|w ws]; try (now rewrite ?firstn_nil); try reflexivity.
  replace (4 * S k)%nat with (4 + 4 * k)%nat by lia.
  change (wbytes (w :: ws)) with (le_bytes 4 w ++ wbytes ws).
  rewrite firstn_app, le_bytes_length. replace (4 + 4 * k - 4)%nat with (4 * k)%nat by lia.
  rewrite IH. rewrite firstn_all2 by (rewrite le_bytes_length; lia). reflexivity.
Qed.

Lemma string_sized : forall t prev lim a x,
  0 <= prev -> -2 <= t -> string_fits a -> (forall n, lim = Some n -> 0 <= n) ->
  (forall len, 0 <= len < 2 ^ 31 -> limit_len t prev len = cut_at lim len) ->
  string_image lim a = Some x ->
  exists n, getArgSize t prev 0 a = Some (ASize (zlen x) prev n) /\ 0 <= n < 2 ^ 32 /\
    n <= zlen (string_bytes a) /\ is_string_arg a = true /\ img t n a = x /\
    str_out n a = match a with
      | AStr _ buf => match visible lim buf with Some s => s ++ [0] | None => [] end
      | AWStr _ buf => match visible lim buf with Some s => flat_map (le_bytes 4) s ++ [0; 0; 0; 0] | None => [] end
      | _ => []
      end.
Proof.
  intros t prev lim a x Hp Ht Hf Hn Hlim H.
  assert (Tn : (t <=? PT_NON_STRING) = false) by (unfold PT_NON_STRING; lia).
  destruct a as [ty v|bs|p buf|p buf|p|e p buf]; try discriminate H; cbn [string_image string_fits] in *;
    destruct Hf as [Hz Hf]; (destruct (up_to_nul buf) as [s|] eqn:U; [clear Hz|congruence]);
    destruct (visible_terminated lim buf s U Hn) as (V & L & B); pose proof (zlen_nonneg _ s);
    set (n := cut_at lim (zlen s)) in *;
    assert (Hn0 : 0 <= n) by (rewrite <- L; apply zlen_nonneg);
    assert (Hn1 : n <= zlen s) by (subst n; unfold cut_at; destruct lim; lia);
    rewrite V in H |- *; cbn [option_map] in H; rewrite L in H;
    apply (f_equal (fun o => match o with Some y => y | None => [] end)) in H; subst x;
    cbn [getArgSize]; rewrite Tn, strlen_up_to_nul, U; cbn [option_map]; cbv zeta;
    rewrite Hlim by lia; fold n.
  - exists n. unfold img, str_out. cbn [is_string_arg string_bytes aty_of characterWidth andb].
    rewrite Tn. cbn [negb]. rewrite zlen_app, le_bytes_zlen, L.
    repeat split; try lia; try reflexivity. f_equal. f_equal. lia.
  - exists (n * 4). unfold img, str_out. cbn [is_string_arg string_bytes aty_of characterWidth andb].
    rewrite Tn. cbn [negb]. fold (wbytes (firstn (Z.to_nat n) buf)).
    rewrite zlen_app, le_bytes_zlen, !wbytes_zlen, L.
    replace (Z.to_nat (n * 4)) with (4 * Z.to_nat n)%nat by lia. rewrite firstn_wbytes.
    replace (4 * n) with (n * 4) by lia.
    repeat split; try lia; try reflexivity. f_equal. f_equal. lia.
Qed.

Lemma nonstring_sized : forall t prev a, t <= -3 ->
  exists s, getArgSize t prev 0 a = Some s /\ as_string s = 0 /\ img t 0 a = obj_bytes a /\
    as_bytes s = zlen (obj_bytes a) /\
    as_prec s = (if t =? PT_DYNAMIC_PRECISION
                 then match a with AInt _ v => to_u 64 v | AFlt _ | APtr _ _ _ => 0 | _ => prev end else prev).
Proof.
  intros t prev a Ht. assert (Tn : (t <=? PT_NON_STRING) = true) by (unfold PT_NON_STRING; lia).
  unfold img. rewrite Tn, andb_false_r. rewrite obj_bytes_zlen.
  destruct a; cbn [getArgSize]; rewrite ?Tn; eexists; (split; [reflexivity|]); cbn [as_string as_bytes as_prec as_uint64];
    repeat split; destruct (t =? PT_DYNAMIC_PRECISION); reflexivity.
Qed.

Lemma report_nonstring : forall k, (forall l, k <> KStr l) -> k <> KStrDyn -> report k <= -3.
Proof. intros [| |l| |] H1 H2; cbn; try congruence; try (exfalso; eapply H1; reflexivity); discriminate. Qed.

Lemma recorded : forall ks args dyn prev x,
  Forall class_ok ks -> Forall wf_arg args -> Forall string_fits args ->
  0 <= prev -> prec_match prev dyn ->
  args_image ks dyn args = Some x ->
  exists ns, getArgSizes (map report ks) prev args = Some (zlen x, ns) /\
    imgs (map report ks) ns args = x /\
    sizes_ok (map report ks) ns args /\ strings_ok (map report ks) args /\
    strs (map report ks) ns args = strings_image ks dyn args.
Proof.
  induction ks as [|k ks IH]; intros [|a args] dyn prev x Hk Hw Hf Hp Hm H; try discriminate H.
  { injection H as <-. exists []. repeat split. }
  inversion Hk as [|? ? Hk1 Hk2]; subst. inversion Hw as [|? ? Hw1 Hw2]; subst.
  inversion Hf as [|? ? Hf1 Hf2]; subst.
  cbn [args_image] in H.
  assert (Dn : forall n, dyn = Some n -> 0 <= n) by (intros n ->; cbn in Hm; lia).
  (* the string case *)
  assert (SC : forall lim y, -2 <= report k -> (forall n, lim = Some n -> 0 <= n) ->
    (forall len, 0 <= len < 2 ^ 31 -> limit_len (report k) prev len = cut_at lim len) ->
    string_image lim a = Some y ->
    match args_image ks dyn args with Some z => x = y ++ z | None => False end ->
    exists ns, getArgSizes (map report (k :: ks)) prev (a :: args) = Some (zlen x, ns) /\
      imgs (map report (k :: ks)) ns (a :: args) = x /\
      sizes_ok (map report (k :: ks)) ns (a :: args) /\ strings_ok (map report (k :: ks)) (a :: args) /\
      strs (map report (k :: ks)) ns (a :: args) =
        match a with
        | AStr _ buf => match visible lim buf with Some s => s ++ [0] | None => [] end
        | AWStr _ buf => match visible lim buf with Some s => flat_map (le_bytes 4) s ++ [0; 0; 0; 0] | None => [] end
        | _ => []
        end ++ strings_image ks dyn args).
  { intros lim y Ht Hl Hlim Hy Hx.
    destruct (args_image ks dyn args) as [z|] eqn:EZ; [|contradiction]. subst x.
    destruct (IH args dyn prev z Hk2 Hw2 Hf2 Hp Hm EZ) as (ns & G & I & S1 & S2 & S3).
    destruct (string_sized (report k) prev lim a y Hp Ht Hf1 Hl Hlim Hy) as (n & G1 & N1 & N2 & A1 & I1 & O1).
    exists (n :: ns). cbn [map getArgSizes imgs sizes_ok strings_ok strs]. rewrite G1. cbn [as_prec as_bytes as_string].
    rewrite G, I, I1, zlen_app, S3, O1.
    assert (P : is_strp (report k) = true) by (unfold is_strp, PT_NON_STRING; lia). rewrite P.
    repeat split; auto; lia. }
  (* the other case *)
  assert (NC : forall dyn', report k <= -3 ->
    (forall s, getArgSize (report k) prev 0 a = Some s -> 0 <= as_prec s /\ prec_match (as_prec s) dyn') ->
    match args_image ks dyn' args with Some z => x = obj_bytes a ++ z | None => False end ->
    exists ns, getArgSizes (map report (k :: ks)) prev (a :: args) = Some (zlen x, ns) /\
      imgs (map report (k :: ks)) ns (a :: args) = x /\
      sizes_ok (map report (k :: ks)) ns (a :: args) /\ strings_ok (map report (k :: ks)) (a :: args) /\
      strs (map report (k :: ks)) ns (a :: args) = strings_image ks dyn' args).
  { intros dyn' Ht Hs Hx.
    destruct (args_image ks dyn' args) as [z|] eqn:EZ; [|contradiction]. subst x.
    destruct (nonstring_sized (report k) prev a Ht) as (s & G1 & A1 & I1 & B1 & _).
    destruct (Hs s G1) as [Q1 Q2].
    destruct (IH args dyn' (as_prec s) z Hk2 Hw2 Hf2 Q1 Q2 EZ) as (ns & G & I & S1 & S2 & S3).
    exists (0 :: ns). cbn [map getArgSizes imgs sizes_ok strings_ok strs]. rewrite G1, A1.
    rewrite G, I, I1, zlen_app, S3, B1.
    assert (P : is_strp (report k) = false) by (unfold is_strp, PT_NON_STRING; lia). rewrite P.
    repeat split; auto; discriminate. }
  destruct k as [| |lim| |].
  - apply NC; [cbn; unfold PT_DYNAMIC_WIDTH; lia| |].
    + intros s Hs. destruct (nonstring_sized (report KWidth) prev a ltac:(discriminate)) as (s' & G1 & _ & _ & _ & P).
      rewrite G1 in Hs. injection Hs as <-. rewrite P. auto.
    + destruct (args_image ks dyn args); cbn in H; [congruence|discriminate].
  - destruct (take_int (promote a)) as [n|] eqn:TI; [|discriminate]. cbn [option_map] in H.
    cbn [strings_image]. rewrite TI.
    apply NC; [cbn; unfold PT_DYNAMIC_PRECISION; lia| |].
    + intros s Hs. destruct (nonstring_sized (report KPrec) prev a ltac:(discriminate)) as (s' & G1 & _ & _ & _ & P).
      rewrite G1 in Hs. injection Hs as <-. rewrite P. change (report KPrec =? PT_DYNAMIC_PRECISION) with true. cbv iota.
      destruct a as [ty v|bs|q buf|q buf|q|e q buf]; try discriminate TI.
      cbn [promote take_int] in TI. destruct (promoted_bytes ty =? 4) eqn:E4; [|discriminate].
      apply (f_equal (fun o => match o with Some y => y | None => 0 end)) in TI.
      destruct Hw1 as [Hb Hr]. unfold promoted_bytes in E4.
      assert (R : - 2 ^ 31 <= v < 2 ^ 32).
      { unfold in_range, it_bits in Hr. destruct (it_signed ty); destruct Hb as [Hb|[Hb|[Hb|Hb]]]; rewrite Hb in *; cbn in Hr, E4; lia. }
      split; [apply to_u_range; lia|]. unfold prec_match.
      destruct (n <? 0) eqn:En.
      * destruct (v <? 0) eqn:Ev.
        -- unfold to_u. lia.
        -- rewrite to_u_id by lia. assert (2 ^ 31 <= v); [|lia].
           destruct (Z_lt_le_dec v (2 ^ 31)); [|lia]. rewrite to_s_id in TI by lia. lia.
      * assert (v = n).
        { unfold to_s in TI. change (2 ^ (32 - 1)) with (2 ^ 31) in TI. destruct (v mod 2 ^ 32 <? 2 ^ 31) eqn:Q; lia. }
        subst v. rewrite to_u_id by lia. lia.
    + destruct (args_image ks _ args); cbn in H; [congruence|discriminate].
  - destruct (string_image lim a) as [y|] eqn:SI; [|discriminate]. cbn [option_map] in H.
    cbn [strings_image]. apply (SC lim y); auto.
    + destruct lim; cbn in *; unfold PT_STRING_WITH_NO_PRECISION; lia.
    + intros n ->. cbn in Hk1. lia.
    + intros. apply limit_len_static; auto; lia.
    + destruct (args_image ks dyn args); cbn in H; [congruence|discriminate].
  - destruct (string_image dyn a) as [y|] eqn:SI; [|discriminate]. cbn [option_map] in H.
    cbn [strings_image]. apply (SC dyn y); auto.
    + cbn; unfold PT_STRING_WITH_DYNAMIC_PRECISION; lia.
    + intros. now apply limit_len_dyn.
    + destruct (args_image ks dyn args); cbn in H; [congruence|discriminate].
  - apply NC; [cbn; unfold PT_NON_STRING; lia| |].
    + intros s Hs. destruct (nonstring_sized (report KOther) prev a ltac:(discriminate)) as (s' & G1 & _ & _ & _ & P).
      rewrite G1 in Hs. injection Hs as <-. rewrite P. auto.
    + destruct (args_image ks dyn args); cbn in H; [congruence|discriminate].
Qed.

Lemma store_arguments_some : forall ts ns args m s, sizes_ok ts ns args ->
  exists r, store_arguments m s ts ns args = Some r.
Proof.
  induction ts as [|t ts IH]; intros [|n ns] [|a args] m s H; try contradiction H.
  - eexists. reflexivity.
  - cbn [sizes_ok store_arguments] in *. destruct H as [Hn H].
    unfold store_argument. unfold is_strp in Hn.
    destruct (is_string_arg a && negb (t <=? PT_NON_STRING)) eqn:E; [|apply IH; auto].
    replace (2 ^ 32 - 1 <? n) with false; [apply IH; auto|].
    assert (PT_NON_STRING <? t = true) by lia. specialize (Hn H0). lia.
Qed.

(** C11: recording a statement always succeeds and leaves exactly the staged
    form of its arguments. *)
Theorem C11_strings_cut : forall ks args m p id ts x,
  Forall class_ok ks -> Forall wf_arg args -> Forall string_fits args ->
  args_image ks None args = Some x ->
  exists r, log_record m p id ts (map report ks) args = Some r /\
    lr_alloc r = 16 + zlen x /\ load (lr_mem r) (p + 16) (length x) = x.
Proof.
  intros ks args m p id ts x Hk Hw Hf H.
  destruct (recorded ks args None (2 ^ 64 - 1) x Hk Hw Hf ltac:(lia) ltac:(cbn; lia) H)
    as (ns & G & I & S1 & S2 & S3).
  unfold log_record. rewrite G.
  destruct (store_arguments_some _ _ _ m (p + 16) S1) as [[m1 e] ES]. rewrite ES.
  eexists. split; [reflexivity|]. cbn [lr_alloc lr_mem].
  destruct (store_arguments_imgs _ args (2 ^ 64 - 1) m (p + 16) _ ns m1 e ltac:(lia) G ES) as (M & _ & N).
  split; [lia|].
  rewrite !load_store_disjoint by (rewrite ?le_bytes_zlen; lia).
  rewrite (meq_load _ _ _ _ M), I. apply load_store_same.
Qed.
Print Assumptions C11_strings_cut.

Example C11_instance :
  let args := [AStr 50 [97; 98; 99; 0]; AInt (Ity true 4) (-1); AStr 60 [100; 101; 0]; AInt (Ity true 4) 1;
               AWStr 70 [8364; 66; 0]; AStr 80 [120; 0; 7]] in
  args_image [KStr (Some 2); KPrec; KStrDyn; KPrec; KStrDyn; KStr (Some 9)] None args =
  Some ([2; 0; 0; 0; 97; 98] ++ [255; 255; 255; 255] ++ [2; 0; 0; 0; 100; 101] ++ [1; 0; 0; 0]
        ++ [4; 0; 0; 0; 172; 32; 0; 0] ++ [1; 0; 0; 0; 120]) /\
  Forall wf_arg args /\ Forall string_fits args.
Proof.
  cbv zeta. split; [vm_compute; reflexivity|]. split.
  - repeat constructor; cbn; unfold is_byte, wchar_ok; try lia; repeat constructor; lia.
  - repeat constructor; vm_compute; congruence.
Qed.

(** printf accepts a character array without terminator when the precision ends
    the output before the end of the array; NanoLog calls strlen on it. *)
Theorem C11_unterminated_refuted : exists args x,
  args_image [KStr (Some 2)] None args = Some x /\
  forall m p id ts, log_record m p id ts (map report [KStr (Some 2)]) args = None.
Proof. exists [AStr 50 [97; 98; 99]]. eexists. split; [vm_compute; reflexivity|]. intros. reflexivity. Qed.
Print Assumptions C11_unterminated_refuted.
