(** Lemmas on the generated code of the preprocessor version. *)
From Verif Require Import Base BaseProofs Packer PackerProofs LogHeader LogHeaderProofs Chars Fmt FmtProofs FrontFmt FrontFmtProofs
  Regex MicroCode MicroCodeProofs Args Printf ArgsProofs Prop_Args Decode DecodeProofs RingProofs Encoder
  Preproc PreprocProofs PreprocLit Prop_Preproc GenCode.

Ltac Zify.zify_post_hook ::= Z.div_mod_to_equations.

(** ** Conversion of the arguments *)

(** float to double yields the eight bytes of a double. *)
Definition widen_ok (widen : list Z -> list Z) : Prop :=
  forall bs, length bs = 4%nat -> Forall is_byte bs -> length (widen bs) = 8%nat /\ Forall is_byte (widen bs).

(** What a double that was a float prints as does not depend on when it was
    converted. *)
Definition wval (widen : list Z -> list Z) (x : rval) : rval :=
  match x with RFlt (F32w bs) => RFlt (F64 (widen bs)) | _ => x end.
Definition wconv (widen : list Z -> list Z) (rc : rconv) : rconv :=
  RConv (rc_flags rc) (rc_width rc) (rc_prec rc) (rc_len rc) (rc_conv rc) (wval widen (rc_val rc)).
Definition widens (widen : list Z -> list Z) (conv : rconv -> list Z) : Prop :=
  forall rc, conv (wconv widen rc) = conv rc.

Lemma param_kind : forall t k, kind_of t = Some k -> exists ty, param_type t = Some ty /\
  match k with
  | CkInt n => exists s, ty = TyInt (Ity s (Z.to_nat n)) /\ (n = 1 \/ n = 2 \/ n = 4 \/ n = 8)
  | CkDouble => ty = TyFlt 8
  | CkLongDouble => ty = TyFlt 16
  | CkPtr => ty = TyVoid
  | CkStr => ty = TyStr
  | CkWStr => ty = TyWStr
  end.
Proof.
  intros [] k H; cbn in H; try discriminate H; injection H as <-; eexists; (split; [reflexivity|]); try reflexivity;
    eexists; (split; [reflexivity|lia]).
Qed.

Lemma kind_string : forall t k, kind_of t = Some k -> isStringType t = match k with CkStr | CkWStr => true | _ => false end.
Proof. intros [] k H; cbn in H; try discriminate H; injection H as <-; reflexivity. Qed.

Definition rel1 (widen : list Z -> list Z) (k : pclass) (t : ftype) (a a' : arg) : Prop :=
  exists ty, param_type t = Some ty /\ convert widen ty a = Some a' /\ aty_of a' = ty /\
    wf_arg a' /\ string_fits a' /\ is_string_arg a' = is_strk k /\ isStringType t = is_strk k /\
    (k = KWidth \/ k = KPrec -> take_int (promote a') = take_int (promote a) /\
       exists v, a' = AInt (Ity true 4) v /\ take_int (promote a') = Some v).

Fixpoint related (widen : list Z -> list Z) (ks : list pclass) (ts : list ftype) (args args' : list arg) : Prop :=
  match ks, ts, args, args' with
  | [], [], [], [] => True
  | k :: ks, t :: ts, a :: r, a' :: r' => rel1 widen k t a a' /\ related widen ks ts r r'
  | _, _, _, _ => False
  end.

Lemma related_app : forall w ks1 ts1 a1 b1 ks2 ts2 a2 b2,
  related w ks1 ts1 a1 b1 -> related w ks2 ts2 a2 b2 -> related w (ks1 ++ ks2) (ts1 ++ ts2) (a1 ++ a2) (b1 ++ b2).
Proof.
  induction ks1 as [|k ks1 IH]; intros [|t ts1] [|a a1] [|b b1] ks2 ts2 a2 b2 H1 H2; cbn [related] in H1; try contradiction.
  - exact H2.
  - destruct H1. cbn [app related]. auto.
Qed.

Lemma wf_cast : forall s n v, (n = 1 \/ n = 2 \/ n = 4 \/ n = 8)%nat -> wf_arg (AInt (Ity s n) (cast (Ity s n) v)).
Proof. intros s n v H. split; [exact H|]. apply cast_in_range. cbn [it_bytes]. lia. Qed.

Lemma convert_take : forall widen sp t pr a x, widen_ok widen ->
  spec_ok sp = true -> kind_of t = Some (conv_kind sp) ->
  take sp pr (promote a) = Some x -> wf_arg a -> string_fits a ->
  (is_strk (spec_class sp) = true -> is_string_arg a = true) ->
  exists a', rel1 widen (spec_class sp) t a a' /\ take sp pr (promote a') = Some (wval widen x).
Proof.
  intros widen sp t pr a x HW Hsp Hk Ht Hw Hf Hs.
  destruct (param_kind _ _ Hk) as (ty & HP & D). pose proof (kind_string _ _ Hk) as KS.
  pose proof (spec_class_kind sp Hsp) as SC. rewrite <- SC in KS.
  assert (NS : spec_class sp = KWidth \/ spec_class sp = KPrec -> False).
  { unfold spec_class. destruct (sp_conv sp =? 115), (sp_prec sp); intros [X|X]; discriminate X. }
  unfold rel1. rewrite HP. unfold take in Ht |- *.
  destruct (conv_kind sp) as [n| | | | |] eqn:CK.
  - destruct D as (s & -> & Hn).
    destruct a as [t0 v|bs|p buf|p buf|p|e p buf]; cbn [promote] in Ht; try discriminate Ht.
    destruct (promoted_bytes t0 =? Z.max 4 n) eqn:E; [|discriminate]. apply some_inj in Ht. subst x.
    exists (AInt (Ity s (Z.to_nat n)) (cast (Ity s (Z.to_nat n)) v)). split.
    + exists (TyInt (Ity s (Z.to_nat n))). cbn [convert aty_of is_string_arg string_fits]. splits; auto.
      * apply (wf_cast s (Z.to_nat n) v). lia.
      * intro X. destruct (NS X).
    + cbn [promote]. destruct (conv_ity_size sp n Hsp CK) as [C1 C2].
      unfold promoted_bytes. cbn [it_bytes wval]. rewrite Z2Nat.id by lia. rewrite Z.eqb_refl.
      f_equal. f_equal. apply cast_cast; cbn [it_bytes]; lia.
  - subst ty. destruct a as [t0 v|bs|p buf|p buf|p|e p buf]; cbn [promote] in Ht; try discriminate Ht.
    cbn [wf_arg] in Hw. destruct Hw as [Hl Hb]. unfold zlen in Ht.
    destruct Hl as [Hl|[Hl|Hl]]; rewrite Hl in Ht; cbn in Ht; try discriminate Ht; apply some_inj in Ht; subst x.
    + destruct (HW bs Hl Hb) as [W1 W2]. exists (AFlt (widen bs)). split.
      * exists (TyFlt 8). cbn [convert]. rewrite Hl. cbn [Nat.eqb andb aty_of is_string_arg string_fits].
        unfold wf_arg. rewrite W1. splits; auto. intro X; destruct (NS X).
      * cbn [promote]. unfold zlen. rewrite W1. reflexivity.
    + exists (AFlt bs). split.
      * exists (TyFlt 8). cbn [convert]. rewrite Hl. cbn [Nat.eqb andb aty_of is_string_arg string_fits].
        unfold wf_arg. rewrite Hl. splits; auto. intro X; destruct (NS X).
      * cbn [promote]. unfold zlen. rewrite Hl. reflexivity.
  - subst ty. destruct a as [t0 v|bs|p buf|p buf|p|e p buf]; cbn [promote] in Ht; try discriminate Ht.
    cbn [wf_arg] in Hw. destruct Hw as [Hl Hb]. unfold zlen in Ht.
    destruct Hl as [Hl|[Hl|Hl]]; rewrite Hl in Ht; cbn in Ht; try discriminate Ht; apply some_inj in Ht; subst x.
    exists (AFlt bs). split.
    + exists (TyFlt 16). cbn [convert]. rewrite Hl. cbn [Nat.eqb andb aty_of is_string_arg string_fits].
      unfold wf_arg. rewrite Hl. splits; auto. intro X; destruct (NS X).
    + cbn [promote]. unfold zlen. rewrite Hl. reflexivity.
  - subst ty. destruct a as [t0 v|bs|p buf|p buf|p|e p buf]; cbn [promote] in Ht; try discriminate Ht;
      apply some_inj in Ht; subst x; exists (AVoid p); (split; [|reflexivity]);
      exists TyVoid; cbn [convert aty_of is_string_arg string_fits wf_arg] in *; splits; auto; try lia;
      intro X; destruct (NS X).
  - subst ty. specialize (Hs ltac:(rewrite SC; reflexivity)).
    destruct a as [t0 v|bs|p buf|p buf|p|e p buf]; try discriminate Hs; cbn [promote] in Ht; try discriminate Ht.
    exists (AStr p buf). split.
    + exists TyStr. cbn [convert aty_of is_string_arg]. splits; auto. intro X; destruct (NS X).
    + cbn [promote]. destruct (visible pr buf); [|discriminate Ht]. cbn [option_map] in *. apply some_inj in Ht. now subst x.
  - subst ty. specialize (Hs ltac:(rewrite SC; reflexivity)).
    destruct a as [t0 v|bs|p buf|p buf|p|e p buf]; try discriminate Hs; cbn [promote] in Ht; try discriminate Ht.
    exists (AWStr p buf). split.
    + exists TyWStr. cbn [convert aty_of is_string_arg]. splits; auto. intro X; destruct (NS X).
    + cbn [promote]. destruct (visible pr buf); [|discriminate Ht]. cbn [option_map] in *. apply some_inj in Ht. now subst x.
Qed.

Lemma convert_star : forall widen k a n, k = KWidth \/ k = KPrec -> take_int (promote a) = Some n -> wf_arg a ->
  exists a', rel1 widen k int_t a a' /\ take_int (promote a') = Some n.
Proof.
  intros widen k a n Hk Ht Hw.
  destruct a as [t0 v|bs|p buf|p buf|p|e p buf]; cbn [promote take_int] in Ht; try discriminate Ht.
  destruct (promoted_bytes t0 =? 4) eqn:E; [|discriminate Ht]. apply some_inj in Ht. subst n.
  exists (AInt (Ity true 4) (cast (Ity true 4) v)).
  assert (E2 : take_int (promote (AInt (Ity true 4) (cast (Ity true 4) v))) = Some (to_s 32 v)).
  { cbn [promote take_int]. change (promoted_bytes (Ity true 4) =? 4) with true. cbv iota. f_equal.
    exact (cast_cast (Ity true 4) (Ity true 4) v (le_n _) ltac:(cbn; lia)). }
  split; [|exact E2]. exists (TyInt (Ity true 4)). cbn [param_type convert aty_of is_string_arg string_fits isStringType].
  pose proof (wf_cast true 4 v ltac:(lia)) as W.
  splits; auto; try (destruct Hk as [-> | ->]; reflexivity).
  - intros _. rewrite E2. split; [cbn [promote take_int]; now rewrite E|]. eexists. split; [reflexivity|].
    unfold cast. cbn [it_signed]. change (it_bits (Ity true 4)) with 32. reflexivity.
Qed.

(** The types of a fragment's parameters. *)
Definition frag_types (f : fmttype) : list ftype :=
  match ft_type f with
  | NONE => []
  | t => match ft_width f with FStar => [int_t] | _ => [] end
         ++ match ft_prec f with FStar => [int_t] | _ => [] end ++ [t]
  end.

Lemma arg_types_cons : forall f fs, arg_types (f :: fs) = frag_types f ++ arg_types fs.
Proof. reflexivity. Qed.

Lemma spec_types : forall sp f, kind_of (ft_type f) = Some (conv_kind sp) -> ft_width f = pwidth sp -> ft_prec f = pprec sp ->
  frag_types f = (if dyn_width sp then [int_t] else []) ++ (if dyn_prec sp then [int_t] else []) ++ [ft_type f].
Proof.
  intros sp f K W P. unfold frag_types. rewrite W, P. unfold pwidth, pprec, dyn_width, dyn_prec.
  destruct (ft_type f); try discriminate K; destruct (sp_width sp), (sp_prec sp); reflexivity.
Qed.

(** The arguments of one conversion. *)
Lemma convert_resolve : forall widen sp f args rc vs', widen_ok widen -> spec_ok sp = true ->
  kind_of (ft_type f) = Some (conv_kind sp) -> ft_width f = pwidth sp -> ft_prec f = pprec sp ->
  resolve sp (map promote args) = Some (rc, vs') -> Forall wf_arg args -> Forall string_fits args ->
  (exists ks, Forall2 (fun k a => is_strk k = true -> is_string_arg a = true) (spec_params sp ++ ks) args) ->
  exists hd rest hd', args = hd ++ rest /\ vs' = map promote rest /\
    related widen (spec_params sp) (frag_types f) hd hd' /\
    forall tl, resolve sp (map promote (hd' ++ tl)) = Some (wconv widen rc, map promote tl).
Proof.
  intros widen sp f args rc vs' HW Hsp Hk Ew Ep HR Hw Hf (ks & HS).
  rewrite (spec_types sp f Hk Ew Ep). unfold resolve, spec_params in *.
  destruct (take_width (sp_width sp) (map promote args)) as [[[extra wo] vs1]|] eqn:TW; [|discriminate].
  destruct (take_prec (sp_prec sp) vs1) as [[po vs2]|] eqn:TP; [|discriminate].
  destruct vs2 as [|v vs3]; [discriminate|]. destruct (take sp po v) as [x|] eqn:TK; [|discriminate].
  apply some_inj in HR. assert (rc = RConv (extra ++ sp_flags sp) wo po (sp_len sp) (sp_conv sp) x /\ vs3 = vs') as (-> & ->) by (split; congruence).
  clear HR.
  (* the last argument *)
  assert (LAST : forall a, promote a = v -> wf_arg a -> string_fits a -> (is_strk (spec_class sp) = true -> is_string_arg a = true) ->
    exists a', rel1 widen (spec_class sp) (ft_type f) a a' /\ take sp po (promote a') = Some (wval widen x)).
  { intros a <- Wa Fa Sa. eapply convert_take; eauto. }
  (* the precision *)
  assert (PREC : forall args1, map promote args1 = vs1 -> Forall wf_arg args1 -> Forall string_fits args1 ->
    Forall2 (fun k a => is_strk k = true -> is_string_arg a = true)
      ((match sp_prec sp with PrStar => [KPrec] | _ => [] end ++ [spec_class sp]) ++ ks) args1 ->
    exists hd rest hd', args1 = hd ++ rest /\ vs' = map promote rest /\
      related widen (match sp_prec sp with PrStar => [KPrec] | _ => [] end ++ [spec_class sp])
        ((if dyn_prec sp then [int_t] else []) ++ [ft_type f]) hd hd' /\
      forall tl, exists v', take_prec (sp_prec sp) (map promote (hd' ++ tl)) = Some (po, v' :: map promote tl) /\
        take sp po v' = Some (wval widen x)).
  { intros args1 E1 W1 F1 S1. unfold dyn_prec.
    assert (ONE : forall args2, map promote args2 = v :: vs' -> Forall wf_arg args2 -> Forall string_fits args2 ->
      Forall2 (fun k a => is_strk k = true -> is_string_arg a = true) (spec_class sp :: ks) args2 ->
      exists a rest a', args2 = a :: rest /\ vs' = map promote rest /\ rel1 widen (spec_class sp) (ft_type f) a a' /\
        take sp po (promote a') = Some (wval widen x)).
    { intros [|a rest] E2 W2 F2 S2; [discriminate E2|]. cbn [map] in E2.
      inversion W2; inversion F2; inversion S2; subst.
      destruct (LAST a ltac:(congruence) ltac:(auto) ltac:(auto) ltac:(auto)) as (a' & R & T).
      exists a, rest, a'. splits; auto. congruence. }
    destruct (sp_prec sp) as [|ds|] eqn:PR; cbn [take_prec app] in *.
    - assert (po = None /\ vs1 = v :: vs') as (-> & EV) by (split; congruence). rewrite EV in E1.
      destruct (ONE args1 E1 W1 F1 S1) as (a & rest & a' & -> & -> & R & T).
      exists [a], rest, [a']. splits; auto. { cbn [related]. auto. } intro tl. exists (promote a'). split; auto.
    - assert (po = Some (dec_val ds) /\ vs1 = v :: vs') as (-> & EV) by (split; congruence). rewrite EV in E1.
      destruct (ONE args1 E1 W1 F1 S1) as (a & rest & a' & -> & -> & R & T).
      exists [a], rest, [a']. splits; auto. { cbn [related]. auto. } intro tl. exists (promote a'). split; auto.
    - destruct vs1 as [|v0 vs1]; [discriminate|]. destruct (take_int v0) as [n|] eqn:TI; [|discriminate].
      assert (po = (if n <? 0 then None else Some n) /\ vs1 = v :: vs') as (-> & EV) by (split; congruence). subst vs1.
      destruct args1 as [|a0 args1]; [discriminate E1|]. cbn [map] in E1.
      inversion W1; inversion F1; inversion S1; subst.
      destruct (ONE args1 ltac:(congruence) ltac:(auto) ltac:(auto) ltac:(auto)) as (a & rest & a' & -> & -> & R & T).
      assert (P0 : promote a0 = v0) by congruence. rewrite <- P0 in TI.
      destruct (convert_star widen KPrec a0 n ltac:(auto) TI ltac:(auto)) as (a0' & R0 & T0).
      exists [a0; a], rest, [a0'; a']. splits; auto. { cbn [related]. auto. }
      intro tl. exists (promote a'). cbn [app map]. rewrite T0. split; auto. }
  unfold dyn_width. destruct (sp_width sp) as [|ds|] eqn:WD; cbn [take_width app] in *.
  - assert (extra = [] /\ wo = None /\ vs1 = map promote args) as (-> & -> & EV) by (splits; congruence).
    destruct (PREC args (eq_sym EV) Hw Hf HS) as (hd & rest & hd' & -> & -> & R & T).
    exists hd, rest, hd'. splits; auto. intro tl. destruct (T tl) as (v' & T1 & T2). rewrite T1, T2. reflexivity.
  - assert (extra = [] /\ wo = Some (dec_val ds) /\ vs1 = map promote args) as (-> & -> & EV) by (splits; congruence).
    destruct (PREC args (eq_sym EV) Hw Hf HS) as (hd & rest & hd' & -> & -> & R & T).
    exists hd, rest, hd'. splits; auto. intro tl. destruct (T tl) as (v' & T1 & T2). rewrite T1, T2. reflexivity.
  - destruct args as [|a0 args]; [discriminate|]. cbn [map] in TW. destruct (take_int (promote a0)) as [n|] eqn:TI; [|discriminate].
    assert (EX : extra = (if n <? 0 then [45] else []) /\ wo = (if n <? 0 then Some (- n) else Some n) /\ vs1 = map promote args)
      by (destruct (n <? 0); splits; congruence).
    destruct EX as (-> & -> & EV).
    inversion Hw; inversion Hf; inversion HS; subst.
    destruct (PREC args ltac:(auto) ltac:(auto) ltac:(auto) ltac:(auto)) as (hd & rest & hd' & -> & -> & R & T).
    destruct (convert_star widen KWidth a0 n ltac:(auto) TI ltac:(auto)) as (a0' & R0 & T0).
    exists (a0 :: hd), rest, (a0' :: hd'). splits; auto. { cbn [app related]. auto. }
    intro tl. destruct (T tl) as (v' & T1 & T2). cbn [app map]. rewrite T0.
    destruct (n <? 0); rewrite T1, T2; reflexivity.
Qed.

(** A whole statement. *)
Lemma convert_run : forall widen conv gs fs, widen_ok widen -> widens widen conv -> Forall2 fragment_of gs fs ->
  forall args text, fmt_ok (concat gs) = true ->
  run conv (concat gs) (map promote args) = Some text -> Forall wf_arg args -> Forall string_fits args ->
  Forall2 (fun k a => is_strk k = true -> is_string_arg a = true) (params (concat gs)) args ->
  exists args', related widen (params (concat gs)) (arg_types fs) args args' /\
    run conv (concat gs) (map promote args') = Some text.
Proof.
  intros widen conv gs fs HW HC HG. induction HG as [|g f gs fs Hg HG IH]; intros args text Hok HR Hw Hf HS; cbn [concat] in *.
  - inversion HS; subst. exists []. cbn. auto.
  - rewrite params_app in *. rewrite fmt_ok_app in Hok. apply andb_true_iff in Hok. destruct Hok as [Hok1 Hok2].
    rewrite arg_types_cons. destruct Hg as [_ Hg].
    destruct (convs g) as [|sp [|sp2 r]] eqn:EC; [| |destruct Hg].
    + rewrite (params_lits g EC) in *. cbn [app] in *. rewrite run_lits in HR by auto.
      destruct (run conv (concat gs) (map promote args)) as [t2|] eqn:E2; [|discriminate].
      destruct (IH args t2 Hok2 E2 Hw Hf HS) as (args' & R & E3). exists args'.
      destruct Hg as (Hg & _). unfold frag_types. rewrite Hg. cbn [app]. split; [exact R|]. rewrite run_lits by auto. rewrite E3. exact HR.
    + destruct Hg as (Hk & Ew & Ep).
      destruct (convs_one g sp EC) as (pre & post & -> & C1 & C2).
      assert (PE : params (pre ++ Conv sp :: post) = spec_params sp).
      { rewrite params_app, (params_lits pre C1). cbn [app].
        change (params (Conv sp :: post)) with (spec_params sp ++ params post). rewrite (params_lits post C2). apply app_nil_r. }
      rewrite PE in *.
      rewrite fmt_ok_app in Hok1. apply andb_true_iff in Hok1. destruct Hok1 as [_ Hok1].
      unfold fmt_ok in Hok1. cbn [forallb piece_ok] in Hok1. apply andb_true_iff in Hok1. destruct Hok1 as [Hsp _].
      rewrite <- app_assoc in *. rewrite run_lits in HR by auto. cbn [app run] in HR.
      destruct (resolve sp (map promote args)) as [[rc vs']|] eqn:ER; [|discriminate].
      destruct (convert_resolve widen sp f args rc vs' HW Hsp Hk Ew Ep ER Hw Hf ltac:(eauto))
        as (hd & rest & hd' & -> & -> & R & T).
      apply Forall_app in Hw, Hf. rewrite run_lits in HR by auto.
      destruct (run conv (concat gs) (map promote rest)) as [t2|] eqn:E2; [|discriminate].
      assert (HS2 : Forall2 (fun k a => is_strk k = true -> is_string_arg a = true) (params (concat gs)) rest).
      { assert (L : length (spec_params sp) = length hd).
        { clear - R. revert R. generalize (spec_params sp) (frag_types f) hd'. clear. induction hd as [|a hd IH]; intros [|k ks] [|t ts] [|b hd'] R; cbn [related] in R; try contradiction; auto. destruct R as [_ R]. cbn [length]. f_equal. eapply IH; eauto. }
        clear - HS L. revert hd L HS. generalize (spec_params sp). clear. intro ks. induction ks as [|k ks IH]; intros [|a hd] L HS; try discriminate L; auto.
        inversion HS; subst. apply (IH hd); auto. }
      destruct (IH rest t2 Hok2 E2 ltac:(tauto) ltac:(tauto) HS2) as (rest' & R' & E3).
      exists (hd' ++ rest'). split; [apply related_app; auto|].
      rewrite run_lits by auto. cbn [app run]. rewrite T. rewrite run_lits by auto. rewrite E3. rewrite (HC rc). exact HR.
Qed.
