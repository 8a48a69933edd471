(** C48, C50: what is printed for a statement the preprocessor generated code
    for, by the decompressor and by the generated decompression function. *)
From Verif Require Import Base BaseProofs Packer PackerProofs LogHeader Chars Fmt FmtProofs FmtLax FrontFmt FrontFmtProofs
  Prop_FrontFmt Regex MicroCode MicroCodeProofs Args Printf ArgsProofs Prop_Args Decode DecodeProofs Encoder Preproc PreprocProofs
  PreprocLit RingProofs Prop_Preproc Prop_Message GenCode GenSpec GenProofs GenRecord GenMessage.
Ltac Zify.zify_post_hook ::= Z.div_mod_to_equations.

(** What the dictionary entry of a statement says to the decompressor (C49). *)
Definition mc_of (e : dentry) : microcode :=
  MicroCode (to_u 8 (de_nibbles e)) (to_u 8 (zlen (de_frags e))) (de_level e) (de_line e) (de_file e)
    (map frag_of_d (de_frags e)).

(** The way of one message: the preprocessor splits the format, the arguments
    are converted to the parameters of the record function, which stores them at
    [p]; the compression function puts them at [o]; they reach the reader at
    [o'], where [lim] ends the storage. *)
Definition gen_way (widen : list Z -> list Z) (st : stmt) (args : list arg)
    (reader : list fmttype -> dentry -> mem -> Z -> Z -> Z -> Prop) : Prop :=
  forall m p id ts mout o, exists fs e args' r,
    splitAndParse (st_fmt st) = Some fs /\ gen_entry st = Some e /\
    convert_all widen (arg_types fs) args = Some args' /\
    gen_record m p id ts fs args' = Some r /\ lr_end r = p + lr_alloc r /\
    (lr_alloc r < 2 ^ 32 -> exists c,
      gen_compress (arg_types fs) (lr_mem r) p mout o = Some c /\
      forall m' o' lim, moved (gr_mem c) o m' o' (gr_out c - o) -> o' + (gr_out c - o) <= lim ->
        reader fs e m' o' lim (o' + (gr_out c - o))).

(** The decompressor prints [text] and has consumed the message. *)
Definition gen_printed widen conv st args text : Prop :=
  gen_way widen st args (fun _ e m' o' lim e' =>
    exists pushed, print_message conv (mc_of e) m' o' lim = Some (text, pushed, e')).

(** The generated decompression function does. *)
Definition gen_unpacked widen conv fmt st args text : Prop :=
  gen_way widen st args (fun fs _ m' o' lim e' =>
    gen_decompress conv fmt (arg_types fs) m' o' lim = Some (text, e')).

(** A statement of the program: its format [qs] is written as a string literal
    that stands for [fmt], and printf given these arguments prints [text].
    [widen] is the conversion from float to double, which printf's caller does
    (7.16.1.1) and so does the caller of the record function. *)
Definition stmt_defined (widen : list Z -> list Z) (conv : rconv -> list Z) (qs : list piece) (st : stmt) (fmt : list Z)
    (args : list arg) (text : list Z) : Prop :=
  widen_ok widen /\ widens widen conv /\
  st_fmt st = render qs /\ fmt_ok qs = true /\ prec_int qs = true /\
  denotes (st_fmt st) fmt /\ (exists name, denotes (st_file st) name) /\ user_level (st_level st) /\
  Forall wf_arg args /\ Forall string_fits args /\ length args = length (params qs) /\
  printf conv fmt (map promote args) = Some text.

(** Full statements. *)
Definition C48_full : Prop := forall widen conv qs st fmt args text,
  stmt_defined widen conv qs st fmt args text -> gen_printed widen conv st args text.
Definition C50_full : Prop := forall widen conv qs st fmt args text,
  stmt_defined widen conv qs st fmt args text -> gen_unpacked widen conv fmt st args text.

(** The arguments of [%s] are char* or wchar_t* (anything else does not compile,
    since the parameter has that type). *)
Definition typed (k : pclass) (a : arg) : Prop := is_strk k = true -> is_string_arg a = true.

Lemma regroup : forall gs fs vgs, Forall2 fragment_of gs fs -> Forall2 (fun g w => value g = Some w) gs vgs ->
  fmt_ok (concat gs) = true -> exists fs', Forall2 fragment_of vgs fs' /\ arg_types fs' = arg_types fs.
Proof.
  intros gs fs vgs HF. revert vgs. induction HF as [|g f gs fs Hg HF IH]; intros vgs HV Hok;
    inversion HV as [|? w ? vgs' V1 V2]; subst.
  - exists []. split; [constructor|reflexivity].
  - cbn [concat] in Hok. rewrite fmt_ok_app in Hok. apply andb_true_iff in Hok. destruct Hok as [Hok1 Hok2].
    destruct (IH _ V2 Hok2) as (fs' & A & B). destruct Hg as [T Hg].
    destruct (value_spec _ _ V1 Hok1) as (_ & CV & _).
    exists (FmtType (ft_type f) (ft_width f) (ft_prec f) (render w) :: fs'). split.
    + constructor; [|exact A]. split; [reflexivity|]. cbn [ft_type ft_width ft_prec]. rewrite CV. exact Hg.
    + rewrite !arg_types_cons, B. reflexivity.
Qed.

Lemma gen_common : forall widen conv qs st fmt args text,
  stmt_defined widen conv qs st fmt args text -> natural qs = true -> stored_ok qs = true ->
  Forall2 typed (params qs) args ->
  exists fs e gs vgs args',
    splitAndParse (st_fmt st) = Some fs /\ gen_entry st = Some e /\ convert_all widen (arg_types fs) args = Some args' /\
    fmt = render (concat vgs) /\ fmt_ok (concat vgs) = true /\ params (concat vgs) = params qs /\ concat gs = qs /\ cut_ok gs /\
    Forall2 describes vgs (map frag_of_d (de_frags e)) /\ de_nibbles e = zlen (prim_idx (arg_types fs)) /\
    length (de_frags e) = length gs /\ Forall2 fragment_of gs fs /\
    (convs (concat gs) <> [] -> Forall (fun g => convs g <> []) gs) /\ fmt_ok (concat gs) = true /\ stored_ok (concat gs) = true /\
    Forall class_ok (params qs) /\
    related widen (params qs) (arg_types fs) args args' /\ run conv (concat vgs) (map promote args') = Some text.
Proof.
  intros widen conv qs st fmt args text (HW & HC & ES & Hok & Hpi & HL & HF & HV & Hw & Hf & Hlen & HP) Hn Hs HT.
  apply literal_denotes in HL. apply level_number_some in HV. assert (HF' : literal (st_file st) <> None)
    by (destruct HF as (name & HF); apply literal_denotes in HF; congruence).
  rewrite ES in HL. destruct (literal_render qs fmt Hok HL) as (vs & VQ & ->).
  destruct (value_spec qs vs VQ Hok) as (Vok & VC & VP & He).
  destruct (C39_partial qs Hok He Hn) as (fs & gs & SP & CG & FG & Cut & NE & _).
  rewrite <- CG in VQ. destruct (group_values gs vs Cut VQ) as (vgs & GV & CV).
  rewrite <- CG in Hok. destruct (gen_frags gs fs vgs FG GV Hok) as (dfs & ED & DD).
  destruct (regroup gs fs vgs FG GV Hok) as (fs' & FG' & AT).
  unfold printf in HP. rewrite parse_render in HP by auto.
  subst vs.
  assert (HT' : Forall2 typed (params (concat vgs)) args) by now rewrite VP.
  destruct (convert_run widen conv vgs fs' HW HC FG' args text Vok HP Hw Hf HT') as (args' & R & RR).
  rewrite AT, VP in R.
  assert (EE : exists e, gen_entry st = Some e /\ de_frags e = dfs /\ de_nibbles e = zlen (prim_idx (arg_types fs))).
  { unfold gen_entry. rewrite ES, SP, ED. destruct (literal (st_file st)) as [file|]; [|congruence].
    destruct (level_number (st_level st)) as [lv|]; [|congruence]. eexists. split; [reflexivity|]. split; reflexivity. }
  destruct EE as (e & EE & E1 & E2).
  exists fs, e, gs, vgs, args'. rewrite E1.
  split; [now rewrite ES|]. split; [exact EE|]. split; [eapply related_convert; eauto|].
  split; [reflexivity|]. split; [exact Vok|]. split; [exact VP|]. split; [exact CG|]. split; [exact Cut|].
  split; [exact DD|]. split; [exact E2|].
  split. { apply Forall2_len in DD. rewrite map_length in DD. apply Forall2_len in GV. congruence. }
  split; [exact FG|]. split; [rewrite CG; exact NE|]. split; [exact Hok|]. split; [now rewrite CG|].
  split; [apply kstr_class_ok; [now rewrite <- CG|exact Hpi]|]. split; assumption.
Qed.

(** C50, for formats apart from [%.f] (C39) and from precisions with [%ls]. *)
Theorem C50_partial : forall widen conv qs st fmt args text,
  stmt_defined widen conv qs st fmt args text ->
  natural qs = true -> stored_ok qs = true -> Forall2 typed (params qs) args ->
  gen_unpacked widen conv fmt st args text.
Proof.
  intros widen conv qs st fmt args text HD Hn Hs HT m p id ts mout o.
  destruct (gen_common _ _ _ _ _ _ _ HD Hn Hs HT) as (fs & e & gs & vgs & args' & SP & GE & CA & EF & Vok & VP & CG & Cut & DD & NN & LF
    & FG & NE & Hok & St & Cls & R & RR).
  pose proof (related_fine _ _ _ _ _ R Cls) as AF. rewrite <- CG in AF.
  rewrite <- CG in R.
  destruct (gen_record_spec widen gs fs args args' m p id ts FG NE Hok St AF R) as (r & ER & AL & LE & LM).
  exists fs, e, args', r. split; [exact SP|]. split; [exact GE|]. split; [exact CA|]. split; [exact ER|]. split; [exact LE|].
  intro Small. rewrite CG in *.
  set (prims := concat (map obj_bytes (selb prim_type (arg_types fs) args'))) in *.
  set (strings := strings_image (map full (params qs)) None args') in *.
  assert (LD : load (lr_mem r) p (length (entry_bytes id ts prims strings)) = entry_bytes id ts prims strings).
  { rewrite (meq_load _ _ _ _ LM). apply load_store_same. }
  destruct (gen_compress_spec widen (params qs) (arg_types fs) args args' (lr_mem r) p mout o id ts R Cls LD ltac:(fold prims strings; lia))
    as (NZ & c & EC & B & LS & GO & _ & _).
  fold strings in LS, GO. set (xs := pvals (map report (params qs)) args') in *.
  exists c. split; [exact EC|]. intros m' o' lim Hm Hlim.
  pose proof (zlen_nonneg _ xs). pose proof (zlen_nonneg _ (pvalues xs)). pose proof (zlen_nonneg _ strings).
  subst fmt.
  rewrite (gen_decompress_spec widen conv (concat vgs) (arg_types fs) args args' text m' o' lim); rewrite ?VP; auto; fold xs strings.
  - f_equal. f_equal. lia.
  - apply (block_moved xs (gr_mem c) o m' o' (gr_out c - o)); auto. lia.
  - rewrite <- !Z.add_assoc. rewrite (moved_load (gr_mem c) o m' o' (gr_out c - o)); auto; [|lia|unfold zlen in *; lia].
    rewrite !Z.add_assoc. exact LS.
  - lia.
Qed.

Lemma groups_count : forall gs, cut_ok gs -> (convs (concat gs) <> [] -> Forall (fun g => convs g <> []) gs) ->
  (length gs <= Nat.max 1 (length (convs (concat gs))))%nat.
Proof.
  intros gs HC HN. destruct gs as [|g [|g2 gs]]; [cbn; lia|cbn [length]; lia|].
  assert (NE : convs (concat (g :: g2 :: gs)) <> []).
  { cbn [cut_ok] in HC. destruct HC as [(a & sp & ->) _]; [discriminate|]. cbn [concat]. rewrite !convs_app. cbn [convs].
    destruct (convs a); discriminate. }
  specialize (HN NE). clear HC NE. revert HN. generalize (g :: g2 :: gs). clear. intros gs HN.
  enough (length gs <= length (convs (concat gs)))%nat by lia.
  induction HN as [|g gs Hg HN IH]; [cbn; lia|]. cbn [concat length]. rewrite convs_app, app_length.
  destruct (convs g); [congruence|]. cbn [length]. lia.
Qed.

(** C48, for the same formats, non-negative widths and precisions given as
    arguments, and what one byte of the dictionary can count. *)
Theorem C48_partial : forall widen conv qs st fmt args text,
  stmt_defined widen conv qs st fmt args text ->
  natural qs = true -> stored_ok qs = true -> Forall2 harmless (params qs) args ->
  nonstrings qs <= 255 -> zlen (convs qs) <= 255 ->
  gen_printed widen conv st args text.
Proof.
  intros widen conv qs st fmt args text HD Hn Hs HH Hnib Hfr m p id ts mout o.
  assert (HT : Forall2 typed (params qs) args).
  { clear - HH. induction HH as [|k a ks args Hk HH IH]; constructor; auto. unfold typed. destruct k; cbn in *; auto; discriminate. }
  destruct (gen_common _ _ _ _ _ _ _ HD Hn Hs HT) as (fs & e & gs & vgs & args' & SP & GE & CA & EF & Vok & VP & CG & Cut & DD & NN & LF
    & FG & NE & Hok & St & Cls & R & RR).
  pose proof (related_fine _ _ _ _ _ R Cls) as AF. rewrite <- CG in AF.
  assert (AO : Forall2 arg_ok (params qs) args').
  { apply (related_ok _ _ _ _ _ R Cls). clear - HH. induction HH as [|k a ks args Hk HH IH]; constructor; auto.
    intros [-> | ->]; exact Hk. }
  assert (PC : zlen (pvals (map report (params qs)) args') = nonstrings qs).
  { destruct (related_len _ _ _ _ _ R) as (L1 & L2 & L3). unfold nonstrings. apply pvals_count; auto. }
  rewrite <- CG in R.
  destruct (gen_record_spec widen gs fs args args' m p id ts FG NE Hok St AF R) as (r & ER & AL & LE & LM).
  exists fs, e, args', r. split; [exact SP|]. split; [exact GE|]. split; [exact CA|]. split; [exact ER|]. split; [exact LE|].
  intro Small. rewrite CG in *.
  set (prims := concat (map obj_bytes (selb prim_type (arg_types fs) args'))) in *.
  set (strings := strings_image (map full (params qs)) None args') in *.
  assert (LD : load (lr_mem r) p (length (entry_bytes id ts prims strings)) = entry_bytes id ts prims strings).
  { rewrite (meq_load _ _ _ _ LM). apply load_store_same. }
  destruct (gen_compress_spec widen (params qs) (arg_types fs) args args' (lr_mem r) p mout o id ts R Cls LD ltac:(fold prims strings; lia))
    as (NZ & c & EC & B & LS & GO & _ & _).
  fold strings in LS, GO. set (xs := pvals (map report (params qs)) args') in *.
  exists c. split; [exact EC|]. intros m' o' lim Hm Hlim.
  pose proof (zlen_nonneg _ xs). pose proof (zlen_nonneg _ (pvalues xs)). pose proof (zlen_nonneg _ strings).
  assert (B' : block_at m' o' xs) by (apply (block_moved xs (gr_mem c) o m' o' (gr_out c - o)); auto; lia).
  assert (L' : load m' (o' + ((zlen xs + 1) / 2 + zlen (pvalues xs))) (length strings) = strings).
  { rewrite (moved_load (gr_mem c) o m' o' (gr_out c - o)); auto; [|lia|unfold zlen in *; lia].
    rewrite Z.add_assoc. exact LS. }
  assert (Wx : Forall wf_pval xs).
  { apply pvals_wf. clear - AO. induction AO as [|k a ks l Ha AO IH]; constructor; auto. destruct Ha as (Ha & _). exact Ha. }
  pose proof (nibbler_init_at m' o' xs Wx ltac:(lia) B') as NI.
  unfold print_message, mc_of. cbn [mc_numNibbles mc_numFrags mc_frags].
  rewrite NN, NZ.
  replace (to_u 8 (zlen xs)) with (zlen xs) by (unfold to_u; rewrite Z.mod_small by lia; reflexivity).
  assert (NF : to_u 8 (zlen (de_frags e)) = zlen (de_frags e)).
  { unfold to_u. apply Z.mod_small. split; [apply zlen_nonneg|]. unfold zlen at 1. rewrite LF.
    assert (Hg : (length gs <= Nat.max 1 (length (convs (concat gs))))%nat) by (apply groups_count; [exact Cut|now rewrite CG]).
    rewrite CG in Hg. unfold zlen in *. lia. }
  rewrite NF. replace (Z.to_nat (zlen (de_frags e))) with (length (map frag_of_d (de_frags e))) by (rewrite map_length; unfold zlen; lia).
  rewrite firstn_all.
  set (nb := nibbler_init m' o' (zlen xs)) in *.
  assert (EE : nb_end nb = o' + ((zlen xs + 1) / 2 + zlen (pvalues xs))).
  { destruct NI as (_ & _ & E). rewrite E. subst nb. unfold nibbler_init. cbn [nb_cur]. lia. }
  destruct (print_groups_as full conv full_keeps vgs (map frag_of_d (de_frags e)) args' text m' lim (Pst [] [] nb (nb_end nb)) None DD Vok)
    as (s' & l & pv & P & X & U & V & W & Z'); rewrite ?VP; auto; cbn [ps_nb ps_str ps_text ps_pushed app] in *; fold strings.
  - rewrite EE. exact L'.
  - rewrite EE. lia.
  - rewrite P. exists (ps_pushed s'). rewrite X, Z', VP, EE. fold strings. cbn [app]. f_equal. f_equal. lia.
Qed.
Print Assumptions C48_partial.
Print Assumptions C50_partial.

(** A renderer to compute with, and a stand-in for the conversion of floats. *)
Definition widen0 (bs : list Z) : list Z := bs ++ [0; 0; 0; 0].
Definition showw (rc : rconv) : list Z := show (wconv widen0 rc).

Lemma widen0_ok : widen_ok widen0.
Proof.
  intros bs HL HB. unfold widen0. rewrite app_length, HL. split; [reflexivity|].
  apply Forall_app. split; [exact HB|]. repeat constructor; lia.
Qed.
Lemma showw_widens : widens widen0 showw.
Proof. intro rc. unfold showw, wconv. destruct rc as [fl w pr le c v]. destruct v; try reflexivity.
  match goal with x : _ |- context [RFlt ?y] => destruct y; reflexivity end. Qed.

(** The whole way, computed: the decompressor's text and that of the generated
    function. *)
Definition gen_journey (conv : rconv -> list Z) (st : stmt) (args : list arg) : option (list Z) * option (list Z) :=
  match splitAndParse (st_fmt st), gen_entry st, literal (st_fmt st) with
  | Some fs, Some e, Some fmt =>
    match convert_all widen0 (arg_types fs) args with
    | Some args' =>
      match gen_record (fun _ => 0) 1000 0 0 fs args' with
      | Some r =>
        match gen_compress (arg_types fs) (lr_mem r) 1000 (fun _ => 0) 0 with
        | Some c => (option_map (fun x => fst (fst x)) (print_message conv (mc_of e) (gr_mem c) 0 (gr_out c)),
                     option_map fst (gen_decompress conv fmt (arg_types fs) (gr_mem c) 0 (gr_out c)))
        | None => (None, None)
        end
      | None => (None, None)
      end
    | None => (None, None)
    end
  | _, _, _ => (None, None)
  end.

Definition st48 (fmt : list Z) : stmt := Stmt (chars "ERROR") fmt (chars "a.cc") 7.

(** The source text of the format is  <%-*.*s\t%5d%%%hhu%ls%.2f\n>  and a float is
    among the arguments. *)
Definition qs48 : list piece :=
  [Lit 60; Conv (Spec [45] WStar PrStar [] 115); Lit 92; Lit 116; Conv (Spec [] (WNum [53]) PrNone [] 100); Pct;
   Conv (Spec [] WNone PrNone (chars "hh") 117); Conv (Spec [] WNone PrNone (chars "l") 115);
   Conv (Spec [] WNone (PrNum [50]) [] 102); Lit 92; Lit 110; Lit 62].
Definition args48 : list arg :=
  [AInt (Ity true 1) 7; AInt (Ity true 4) 2; AStr 50 [97; 98; 99; 0]; AInt (Ity true 4) (-3);
   AInt (Ity false 1) 200; AWStr 70 [8364; 66; 0]; AFlt [1; 2; 3; 4]].
Definition fmt48 : list Z :=
  chars "<%-*.*s" ++ [9] ++ chars "%5d%%%hhu%ls%.2f" ++ [10] ++ chars ">".
Definition text48 : list Z :=
  chars "<-" ++ [7; 2] ++ chars "ab" ++ [9; 5; -3] ++ chars "%" ++ [200; 8364; 66; 2; 1; 2; 3; 4; 0; 0; 0; 0; 10] ++ chars ">".

Ltac denotes_now := apply literal_denotes; vm_compute; reflexivity.
Ltac defined_now := unfold stmt_defined; split; [exact widen0_ok|split; [exact showw_widens|]];
  repeat match goal with |- _ /\ _ => split end;
  lazymatch goal with
  | |- _ = _ => vm_compute; reflexivity
  | |- denotes _ _ => denotes_now
  | |- exists name, denotes _ _ => eexists; denotes_now
  | |- user_level _ => vm_compute; tauto
  | |- Forall _ ?l => try unfold l; concrete
  end.

Example C48_instance :
  stmt_defined widen0 showw qs48 (st48 (render qs48)) fmt48 args48 text48 /\
  natural qs48 = true /\ stored_ok qs48 = true /\ Forall2 harmless (params qs48) args48 /\
  nonstrings qs48 <= 255 /\ zlen (convs qs48) <= 255 /\
  gen_journey showw (st48 (render qs48)) args48 = (Some text48, Some text48).
Proof.
  split; [defined_now|]. split; [reflexivity|]. split; [reflexivity|]. split.
  - repeat constructor; cbn [harmless]; intros n E; vm_compute in E;
      apply (f_equal (fun o => match o with Some y => y | None => 0 end)) in E; subst n; discriminate.
  - split; [vm_compute; discriminate|]. split; [vm_compute; discriminate|]. vm_compute. reflexivity.
Qed.

Lemma way_journey : forall conv st args text, gen_printed widen0 conv st args text ->
  (forall fs args' r, splitAndParse (st_fmt st) = Some fs -> convert_all widen0 (arg_types fs) args = Some args' ->
     gen_record (fun _ => 0) 1000 0 0 fs args' = Some r -> lr_alloc r < 2 ^ 32) ->
  literal (st_fmt st) <> None ->
  fst (gen_journey conv st args) = Some text.
Proof.
  intros conv st args text H HS HL.
  destruct (H (fun _ => 0) 1000 0 0 (fun _ => 0) 0) as (fs & e & args' & r & SP & GE & CA & ER & _ & HM).
  unfold gen_journey. rewrite SP, GE, CA, ER. destruct (literal (st_fmt st)); [|congruence].
  destruct (HM (HS _ _ _ SP CA ER)) as (c & EC & HR). rewrite EC.
  destruct (HR (gr_mem c) 0 (gr_out c) (fun i _ => eq_refl) ltac:(lia)) as (pushed & E).
  rewrite Z.add_0_l, Z.sub_0_r in E. cbn [fst]. rewrite E. reflexivity.
Qed.

(** A precision with a wide string: the generated function names wcsnlen_s and
    does not compile. *)
Definition qs_wide : list piece := [Conv (Spec [] WNone (PrNum [51]) (chars "l") 115)].
Definition args_wide : list arg := [AWStr 70 [65; 66; 67; 68; 0]].

Theorem C48_refuted_wide_precision : ~ C48_full.
Proof.
  intro H. specialize (H widen0 showw qs_wide (st48 (render qs_wide)) (render qs_wide) args_wide [3; 65; 66; 67]).
  destruct (H ltac:(defined_now) (fun _ => 0) 1000 0 0 (fun _ => 0) 0) as (fs & e & args' & r & SP & _ & CA & ER & _).
  vm_compute in SP. apply some_inj in SP. subst fs. vm_compute in CA. apply some_inj in CA. subst args'.
  vm_compute in ER. discriminate ER.
Qed.

Theorem C50_refuted_wide_precision : ~ C50_full.
Proof.
  intro H. specialize (H widen0 showw qs_wide (st48 (render qs_wide)) (render qs_wide) args_wide [3; 65; 66; 67]).
  destruct (H ltac:(defined_now) (fun _ => 0) 1000 0 0 (fun _ => 0) 0) as (fs & e & args' & r & SP & _ & CA & ER & _).
  vm_compute in SP. apply some_inj in SP. subst fs. vm_compute in CA. apply some_inj in CA. subst args'.
  vm_compute in ER. discriminate ER.
Qed.

(** "%.f" is rejected by the preprocessor (C39). *)
Theorem C50_refuted_empty_precision : ~ C50_full.
Proof.
  intro H. specialize (H widen0 showw [Conv (Spec [] WNone (PrNum []) [] 102)] (st48 (chars "%.f")) (chars "%.f")
    [AFlt [1; 2; 3; 4; 5; 6; 7; 8]] [0; 1; 2; 3; 4; 5; 6; 7; 8]).
  destruct (H ltac:(defined_now) (fun _ => 0) 1000 0 0 (fun _ => 0) 0) as (fs & e & args' & r & SP & _).
  vm_compute in SP. discriminate SP.
Qed.

(** [%s] with an unsigned char pointer, which printf accepts: does not compile. *)
Theorem C50_refuted_unsigned_char : ~ C50_full.
Proof.
  intro H. specialize (H widen0 showw [Conv (Spec [] WNone PrNone [] 115)] (st48 (chars "%s")) (chars "%s")
    [APtr 1 50 [97; 0]] [97]).
  destruct (H ltac:(defined_now) (fun _ => 0) 1000 0 0 (fun _ => 0) 0) as (fs & e & args' & r & SP & _ & CA & _).
  vm_compute in SP. apply some_inj in SP. subst fs. vm_compute in CA. discriminate CA.
Qed.

(** A negative width: the decompressor passes none to fprintf, which looks for
    it (as in C09); the generated decompression function passes it. *)
Theorem C48_refuted_negative_width : ~ C48_full.
Proof.
  intro H. specialize (H widen0 showw [Conv (Spec [] WStar PrNone [] 100)] (st48 (chars "%*d")) (chars "%*d")
    [AInt (Ity true 4) (-5); AInt (Ity true 4) 7] [45; 5; 7] ltac:(defined_now)).
  apply way_journey in H.
  - vm_compute in H. discriminate H.
  - intros fs args' r SP CA ER. vm_compute in SP. apply some_inj in SP. subst fs. vm_compute in CA. apply some_inj in CA. subst args'.
    assert (A : option_map lr_alloc (Some r) = Some 24) by (rewrite <- ER; vm_compute; reflexivity).
    cbn [option_map] in A. apply some_inj in A. rewrite A. reflexivity.
  - discriminate.
Qed.

Example C50_negative_width :
  gen_journey showw (st48 (chars "%*d")) [AInt (Ity true 4) (-5); AInt (Ity true 4) 7] = (None, Some [45; 5; 7]).
Proof. vm_compute. reflexivity. Qed.

(** A string without a terminator, which printf may be given together with a
    precision ("%.3s"): memcpy in the record function reads one byte past it. *)
Example C48_reads_past_the_string :
  printf showw (chars "%.3s") (map promote [AStr 50 [97; 98; 99]]) = Some (3 :: chars "abc") /\
  (exists fs, splitAndParse (chars "%.3s") = Some fs /\
    gen_record (fun _ => 0) 1000 0 0 fs [AStr 50 [97; 98; 99]] = None /\
    option_map lr_alloc (gen_record (fun _ => 0) 1000 0 0 fs [AStr 50 [97; 98; 99; 100]]) = Some 20).
Proof.
  split; [vm_compute; reflexivity|]. eexists. split; [vm_compute; reflexivity|]. split; vm_compute; reflexivity.
Qed.

Print Assumptions C48_refuted_wide_precision.
Print Assumptions C48_refuted_negative_width.
Print Assumptions C50_refuted_wide_precision.
Print Assumptions C50_refuted_empty_precision.
Print Assumptions C50_refuted_unsigned_char.
