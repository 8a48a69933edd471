(** C38, C39, C42: the Python preprocessor's identifiers, fragments and string
    literals. *)
From Verif Require Import Base BaseProofs Chars Fmt FmtProofs Regex MicroCode MicroCodeProofs RingProofs DecodeProofs
  Preproc PreprocProofs PreprocLit.

(** ** C38 *)

(** Full statement: whatever the program, a statement's static information is its
    own. *)
Definition C38_full : Prop := forall units s,
  In s (concat units) -> 0 <= st_line s -> static_info units s = Some s.

(** A file's statements may also come up twice, as in a header: then the entries
    are equal and the statement holds.  It fails when two statements on a line
    differ in the severity only. *)
Definition w_level : list (list stmt) :=
  [[Stmt (chars "DEBUG") (chars "Hello") (chars "a.cc") 7; Stmt (chars "ERROR") (chars "Hello") (chars "a.cc") 7]].
(** And when a character written as its number runs into digits of the format. *)
Definition w_digits : list (list stmt) :=
  [[Stmt (chars "NOTICE") (chars "a ") (chars "a.cc") 7; Stmt (chars "NOTICE") (chars "a32") (chars "a.cc") 7]].

Theorem C38_level_refuted : ~ C38_full.
Proof.
  intro H. specialize (H w_level (Stmt (chars "ERROR") (chars "Hello") (chars "a.cc") 7)).
  assert (E : static_info w_level (Stmt (chars "ERROR") (chars "Hello") (chars "a.cc") 7)
              = Some (Stmt (chars "DEBUG") (chars "Hello") (chars "a.cc") 7)) by (vm_compute; reflexivity).
  rewrite H in E by (try (right; left; reflexivity); cbn; lia). discriminate E.
Qed.

Theorem C38_digits_refuted : ~ (forall units s s',
  In s (concat units) -> 0 <= st_line s -> static_info units s = Some s' -> st_fmt s' = st_fmt s).
Proof.
  intro H. specialize (H w_digits (Stmt (chars "NOTICE") (chars "a32") (chars "a.cc") 7) (Stmt (chars "NOTICE") (chars "a ") (chars "a.cc") 7)).
  assert (E : chars "a " = chars "a32"); [|discriminate E].
  apply H; [right; left; reflexivity|cbn; lia|vm_compute; reflexivity].
Qed.

(** When exactly two statements share an identifier: equal lines, and formats and
    files equal after each character that is neither a letter nor a digit is
    replaced by its number. *)
Theorem C38_when : forall s t,
  Forall (fun c => 0 <= c) (st_fmt s ++ st_file s ++ st_fmt t ++ st_file t) -> 0 <= st_line s -> 0 <= st_line t ->
  (log_id (st_fmt s) (st_file s) (st_line s) = log_id (st_fmt t) (st_file t) (st_line t) <->
   encode (st_fmt s) = encode (st_fmt t) /\ encode (st_file s) = encode (st_file t) /\ st_line s = st_line t).
Proof. intros. now apply log_id_inj. Qed.

(** Of the full statement this leaves out formats and file names with digits or
    characters outside of the printable ASCII ones, and statements which differ in
    the severity only. *)
Definition plain_stmt (s : stmt) : Prop :=
  forallb wordy (st_fmt s) = true /\ forallb wordy (st_file s) = true /\ 0 <= st_line s.
Definition place (s : stmt) : list Z * list Z * Z := (st_fmt s, st_file s, st_line s).

Theorem C38_partial : forall units s,
  In s (concat units) -> Forall plain_stmt (concat units) ->
  (forall a b, In a (concat units) -> In b (concat units) -> place a = place b -> st_level a = st_level b) ->
  static_info units s = Some s.
Proof.
  intros units s Hin HP HL. rewrite Forall_forall in HP. destruct (HP s Hin) as (P1 & P2 & P3).
  assert (HK : key s <> invalid_key).
  { apply key_valid; auto. apply Forall_app. split; now apply wordy_nonneg. }
  destruct (merge_lookup units s Hin HK) as (e & He & Hie & Hk).
  unfold static_info. fold (key s). rewrite He. f_equal.
  destruct (HP e Hie) as (E1 & E2 & E3).
  unfold key in Hk. apply log_id_inj in Hk; auto.
  2: { rewrite !Forall_app. auto using wordy_nonneg. }
  destruct Hk as (K1 & K2 & K3). apply encode_inj in K1, K2; auto.
  assert (Hl : st_level e = st_level s) by (apply HL; auto; unfold place; congruence).
  destruct e, s; cbn in *; congruence.
Qed.
Print Assumptions C38_level_refuted.
Print Assumptions C38_digits_refuted.
Print Assumptions C38_when.
Print Assumptions C38_partial.

(** Two files, one format used twice. *)
Definition w_units : list (list stmt) :=
  [[Stmt (chars "DEBUG") (chars "x=%d\n") (chars "a.cc") 7; Stmt (chars "ERROR") (chars "x=%d\n") (chars "a.cc") 12];
   [Stmt (chars "NOTICE") (chars "x=%d\n") (chars "b.cc") 7]].
Example C38_instance :
  static_info w_units (Stmt (chars "ERROR") (chars "x=%d\n") (chars "a.cc") 12)
  = Some (Stmt (chars "ERROR") (chars "x=%d\n") (chars "a.cc") 12).
Proof.
  apply C38_partial; [right; left; reflexivity| |].
  - repeat constructor; cbn; lia.
  - intros a b [<-|[<-|[<-|[]]]] [<-|[<-|[<-|[]]]] E; try reflexivity; discriminate E.
Qed.

(** ** C39 *)

(** What printf takes, in order: an int for a star, then the conversion's type. *)
Definition printf_args (ps : list piece) : list ckind :=
  flat_map (fun sp => (if dyn_width sp then [CkInt 4] else []) ++ (if dyn_prec sp then [CkInt 4] else []) ++ [conv_kind sp]) (convs ps).

Definition pwidth (sp : spec) : field :=
  match sp_width sp with WNone => FNone | WNum ds => FNum (dec_val ds) | WStar => FStar end.
Definition pprec (sp : spec) : field :=
  match sp_prec sp with PrNone => FNone | PrNum ds => FNum (dec_val ds) | PrStar => FStar end.

(** A fragment against the part of the format it stands for. *)
Definition fragment_of (g : list piece) (f : fmttype) : Prop :=
  ft_sub f = render g /\
  match convs g with
  | [] => ft_type f = NONE /\ ft_width f = FNone /\ ft_prec f = FNone
  | [sp] => kind_of (ft_type f) = Some (conv_kind sp) /\ ft_width f = pwidth sp /\ ft_prec f = pprec sp
  | _ => False
  end.

(** The claim for one format. *)
Definition split_right (ps : list piece) : Prop :=
  exists fs gs, splitAndParse (render ps) = Some fs /\
    concat gs = ps /\ Forall2 fragment_of gs fs /\ cut_ok gs /\
    (convs ps <> [] -> Forall (fun g => convs g <> []) gs) /\
    map kind_of (arg_types fs) = map Some (printf_args ps).

(** Full statement: for all printf formats. *)
Definition C39_full : Prop := forall ps, fmt_ok ps = true -> esc_ok ps = true -> split_right ps.

Theorem C39_refuted : ~ C39_full.
Proof.
  intro H. destruct (H [Conv (Spec [] WNone (PrNum []) [] 102)] eq_refl eq_refl) as (fs & gs & E & _).
  vm_compute in E. discriminate E.
Qed.

(** Whatever the format, if it is accepted nothing of it is lost. *)
Theorem C39_cover : forall fmt fs, splitAndParse fmt = Some fs -> concat (map ft_sub fs) = fmt.
Proof. exact split_cover. Qed.

Lemma ft_kind : forall xs, Forall good xs ->
  map kind_of (arg_types (map ft_of xs)) =
  map Some (flat_map (fun sp => (if dyn_width sp then [CkInt 4] else []) ++ (if dyn_prec sp then [CkInt 4] else []) ++ [conv_kind sp]) (map fst xs)).
Proof.
  induction xs as [|[sp t] xs IH]; intro H; [reflexivity|]. inversion H as [|x l [H1 H2] H3]; subst.
  cbn [map flat_map arg_types fst] in *. unfold arg_types in IH.
  rewrite !map_app, IH by auto. f_equal.
  destruct (py_type_ok sp H1) as [_ K].
  unfold ft_of. cbn [ft_type ft_width ft_prec fst].
  assert (NN : ftype_of sp <> NONE) by (intro X; rewrite X in K; discriminate K).
  match goal with |- map kind_of ?m = _ =>
    replace m with ((match field_of_width (sp_width sp) with FStar => [int_t] | _ => [] end)
      ++ (match field_of_prec (sp_prec sp) with FStar => [int_t] | _ => [] end) ++ [ftype_of sp])
      by (destruct (ftype_of sp); congruence)
  end.
  rewrite !map_app. cbn [map]. rewrite K. unfold dyn_width, dyn_prec.
  destruct (sp_width sp), (sp_prec sp); reflexivity.
Qed.

(** The full statement apart from precisions without digits ([%.f]). *)
Theorem C39_partial : forall ps, fmt_ok ps = true -> esc_ok ps = true -> natural ps = true -> split_right ps.
Proof.
  intros ps Hok He Hn. destruct (split_render ps Hok He Hn) as (xs & HS & HC & HG & HF).
  destruct (pfrags_groups ps [] Hok eq_refl) as (gs & t & He' & HD & Ht & Hct & Hcat & Hlen).
  change (render []) with (@nil Z) in *. cbn [app] in Hcat. rewrite Ht in HF.
  destruct xs as [|x xs].
  - cbn [map] in HC. exists [FmtType NONE FNone FNone (render ps)], [ps]. unfold split_right.
    split; [exact HS|]. cbn [concat]. rewrite app_nil_r. split; [reflexivity|].
    split; [|split; [cbn [cut_ok]; split; [congruence|exact I]|split]].
    + constructor; [|constructor]. unfold fragment_of. rewrite <- HC. cbn. auto.
    + intro X. congruence.
    + unfold printf_args. rewrite <- HC. reflexivity.
  - assert (NE : fst (pfrags [] ps) <> []).
    { intro X. rewrite X in HF. discriminate HF. }
    destruct (extend_last_groups _ gs t NE HD Hct) as (gs' & A & B & Cut). rewrite Hcat in B.
    exists (map ft_of (x :: xs)), gs'. split; [exact HS|]. split; [exact B|]. rewrite <- HF in A.
    assert (FG : Forall2 fragment_of gs' (map ft_of (x :: xs)) /\ Forall (fun g => convs g <> []) gs').
    { assert (HC' : map fst (x :: xs) = concat (map convs gs')).
      { rewrite HC, <- B. clear. induction gs' as [|g gs' IH]; [reflexivity|]. cbn [concat map]. now rewrite convs_app, IH. }
      revert A HG HC'. generalize (x :: xs). clear. intro xs. revert gs'.
      induction xs as [|[sp s] xs IH]; intros gs' A HG HC; inversion A as [|g f gs2 fs2 D1 D2]; subst; [split; constructor|].
      inversion HG as [|y l [G1 G2] G3]; subst. cbn [map concat fst] in HC.
      destruct D1 as [T1 T2]. rewrite frag_ft in T1, T2. cbn [fr_text fr_type fr_dw fr_dp] in T1, T2.
      destruct (py_type_ok sp G1) as [_ K].
      destruct (convs g) as [|sp1 [|sp2 r]] eqn:E; [|cbn [app] in HC|destruct T2].
      { destruct T2 as (T2 & _). rewrite T2 in K. discriminate K. }
      assert (sp1 = sp) as -> by congruence. assert (HC2 : map fst xs = concat (map convs gs2)) by congruence.
      destruct (IH gs2 D2 G3 HC2) as [I1 I2]. split; constructor; auto; [|congruence].
      unfold fragment_of. rewrite E. unfold ft_of. cbn [ft_sub ft_type ft_width ft_prec fst snd].
      split; [exact T1|]. split; [exact K|]. split; reflexivity. }
    destruct FG as [F1 F2]. split; [exact F1|]. split; [auto|]. split; [auto|].
    rewrite ft_kind by auto. unfold printf_args. now rewrite HC.
Qed.

(** Fragments, types and dynamic widths are those of the C++17 decoder. *)
Theorem C39_agree : forall ps, fmt_ok ps = true -> esc_ok ps = true -> natural ps = true ->
  forall file line level mc fs,
  createMicroCode (render ps) file line level = Some mc -> splitAndParse (render ps) = Some fs ->
  mc_frags mc = map (fun f => Frag (ft_type f) (match ft_width f with FStar => true | _ => false end)
                                   (match ft_prec f with FStar => true | _ => false end) (ft_sub f)) fs.
Proof.
  intros ps Hok He Hn file line level mc fs HM HS.
  destruct (split_render ps Hok He Hn) as (xs & HS' & HC & HG & HF). rewrite HS' in HS. apply some_inj in HS. subst fs.
  unfold createMicroCode in HM. rewrite (mc_scan_render (length ps)) in HM by auto.
  cbn [sc_frags sc_rest sc_nib sc_cnt app] in HM.
  destruct (fst (pfrags [] ps)) as [|f fs] eqn:E.
  - destruct xs; [|discriminate HF]. apply some_inj in HM. subst mc. reflexivity.
  - assert (MC : mc_frags mc = extend_last (f :: fs) (snd (pfrags [] ps))) by (apply some_inj in HM; subst mc; reflexivity).
    rewrite MC, <- HF. destruct xs as [|x xs].
    { exfalso. cbn [map] in HF. pose proof (extend_last_length (f :: fs) (snd (pfrags [] ps))) as L.
      rewrite <- HF in L. discriminate L. }
    rewrite map_map. reflexivity.
Qed.
Print Assumptions C39_refuted.
Print Assumptions C39_cover.
Print Assumptions C39_partial.
Print Assumptions C39_agree.

(** [100%% of %-*.*lf\n in %zu] : an escape, stars, two fragments, text behind. *)
Definition fmt39 : list piece :=
  map Lit (chars "100") ++ Pct :: map Lit (chars " of ") ++
  Conv (Spec (chars "-") WStar PrStar (chars "l") 102) :: map Lit (chars "\n in ") ++
  Conv (Spec [] (WNum (chars "12")) PrNone (chars "z") 117) :: map Lit (chars "s").
Example C39_text : render fmt39 = chars "100%% of %-*.*lf\n in %12zus". Proof. reflexivity. Qed.
Example C39_instance :
  splitAndParse (render fmt39) =
    Some [FmtType double_t FStar FStar (chars "100%% of %-*.*lf"); FmtType size_t_t (FNum 12) FNone (chars "\n in %12zus")]
  /\ printf_args fmt39 = [CkInt 4; CkInt 4; CkDouble; CkInt 8].
Proof. split; vm_compute; reflexivity. Qed.
Example C39_instance_guard : fmt_ok fmt39 = true /\ esc_ok fmt39 = true /\ natural fmt39 = true.
Proof. vm_compute. auto. Qed.

(** ** C42 *)

(** Source text: literals with white space before, between and after them. *)
Definition C42_full : Prop := forall ls sp, lits_ok ls = true -> forallb is_space sp = true ->
  extractCString (lits_src ls sp) = Some (contents ls).

(** ["a\\"] *)
Theorem C42_refuted : ~ C42_full.
Proof.
  intro H. specialize (H [([], [Ch 97; Esc c_bsl])] [] eq_refl eq_refl). vm_compute in H. discriminate H.
Qed.

(** What happens in all cases: the contents, except when a literal ends in an
    escaped backslash; then the statement is rejected (a compile time error), and
    never given a wrong text. *)
Theorem C42_exact : forall ls sp, lits_ok ls = true -> forallb is_space sp = true ->
  extractCString (lits_src ls sp) = if existsb (fun '(_, l) => ends_bsl l) ls then None else Some (contents ls).
Proof. intros ls sp H1 H2. unfold extractCString. rewrite extract_lits by auto. destruct (existsb _ ls); reflexivity. Qed.

Theorem C42_partial : forall ls sp, lits_ok ls = true -> forallb is_space sp = true ->
  (forall s l e, In (s, l) ls -> l <> e ++ [Esc c_bsl]) ->
  extractCString (lits_src ls sp) = Some (contents ls).
Proof.
  intros ls sp H1 H2 H. rewrite C42_exact by auto.
  destruct (existsb (fun '(_, l) => ends_bsl l) ls) eqn:E; [|reflexivity]. exfalso.
  apply existsb_exists in E. destruct E as ([s l] & Hin & Hl). unfold ends_bsl in Hl.
  destruct (rev l) as [|[c|c] r] eqn:R; try discriminate Hl.
  apply (H s l (rev r) Hin). rewrite <- (rev_involutive l), R. cbn [rev]. repeat f_equal. lia.
Qed.
Print Assumptions C42_refuted.
Print Assumptions C42_exact.
Print Assumptions C42_partial.

(** ["say \"hi\"\n"] newline ["%d"] *)
Definition lits42 : literals :=
  [([], map Ch (chars "say ") ++ Esc 34 :: map Ch (chars "hi") ++ [Esc 34; Esc 110]); ([10; 32], [Ch 37; Ch 100])].
Example C42_instance : lits_ok lits42 = true /\
  extractCString (lits_src lits42 [32]) = Some (chars "say \" ++ 34 :: chars "hi\" ++ 34 :: chars "\n%d").
Proof. split; vm_compute; reflexivity. Qed.
