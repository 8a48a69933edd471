(** Lemmas on extractCString and splitAndParseTypesInFmtString. *)
From Verif Require Import Base BaseProofs Chars Fmt FmtProofs Regex MicroCode MicroCodeProofs RingProofs DecodeProofs Preproc PreprocProofs.

(** ** String literals in source text *)

(** What stands between the quotes: characters, and escape sequences, which start
    with a backslash and go on with any character (further characters of an octal
    or hexadecimal sequence are ordinary here). *)
Inductive celem := Ch (c : Z) | Esc (c : Z).
Definition elem_src (e : celem) : list Z := match e with Ch c => [c] | Esc c => [c_bsl; c] end.
Definition body_src (l : list celem) : list Z := flat_map elem_src l.
Definition elem_ok (e : celem) : bool :=
  match e with Ch c => negb (c =? 34) && negb (c =? c_bsl) && negb (c =? c_nl) | Esc _ => true end.

(** Adjacent literals, each with the white space in front of it, and the white
    space at the end. *)
Definition literals := list (list Z * list celem).
Definition lits_src (ls : literals) (sp : list Z) : list Z :=
  flat_map (fun '(s, l) => s ++ 34 :: body_src l ++ [34]) ls ++ sp.
Definition lits_ok (ls : literals) : bool :=
  forallb (fun '(s, l) => forallb is_space s && forallb elem_ok l) ls.
Definition contents (ls : literals) : list Z := flat_map (fun '(_, l) => body_src l) ls.

(** The literal's last element is an escaped backslash. *)
Definition ends_bsl (l : list celem) : bool :=
  match rev l with Esc c :: _ => c =? c_bsl | _ => false end.

Definition aft (p : bool) (l : list celem) : bool :=
  fold_left (fun _ e => match e with Ch _ => false | Esc c => c =? c_bsl end) l p.

Lemma aft_ends : forall l, aft false l = ends_bsl l.
Proof.
  intro l. unfold aft, ends_bsl. destruct (rev l) as [|e r] eqn:E.
  - assert (l = []) as -> by (rewrite <- (rev_involutive l), E; reflexivity). reflexivity.
  - assert (l = rev r ++ [e]) as -> by (rewrite <- (rev_involutive l), E; reflexivity).
    rewrite fold_left_app. cbn [fold_left]. destruct e; reflexivity.
Qed.

Lemma extract_body : forall l r out p, forallb elem_ok l = true ->
  extract (body_src l ++ r) out true p = extract r (out ++ body_src l) true (aft p l).
Proof.
  induction l as [|e l IH]; intros r out p H; cbn [body_src flat_map app].
  - now rewrite app_nil_r.
  - cbn [forallb] in H. apply andb_true_iff in H as [He H]. fold (body_src l).
    destruct e as [c|c]; cbn [elem_src app elem_ok] in *.
    + cbn [extract]. replace (c =? 34) with false by lia. cbn [andb].
      replace (c =? c_bsl) with false by (unfold c_bsl in *; lia). rewrite IH by auto. rewrite <- app_assoc. reflexivity.
    + cbn [extract]. change ((c_bsl =? 34) && negb p) with false. cbv iota. change (c_bsl =? c_bsl) with true.
      cbn [negb]. rewrite andb_false_r. rewrite IH by auto. rewrite <- !app_assoc. reflexivity.
Qed.

Lemma space_plain : forall c, is_space c = true -> (c =? 34) = false /\ (c =? c_bsl) = false.
Proof. intros c H. unfold is_space, in_rng, c_bsl in *. lia. Qed.

Lemma extract_space_out : forall s r out, forallb is_space s = true ->
  extract (s ++ r) out false false = extract r out false false.
Proof.
  induction s as [|c s IH]; intros r out H; auto. cbn [forallb] in H. apply andb_true_iff in H as [Hc H].
  cbn [app extract]. destruct (space_plain c Hc) as [-> _]. cbn [andb]. rewrite Hc. auto.
Qed.

Lemma extract_space_in : forall s r out, forallb is_space s = true ->
  extract (s ++ r) out true false = extract r (out ++ s) true false.
Proof.
  induction s as [|c s IH]; intros r out H; [cbn [app]; now rewrite app_nil_r|].
  cbn [forallb] in H. apply andb_true_iff in H as [Hc H].
  cbn [app extract]. destruct (space_plain c Hc) as [-> ->]. cbn [andb]. rewrite IH by auto. now rewrite <- app_assoc.
Qed.

(** A literal's contents met outside of quotes. *)
Lemma extract_body_out : forall l r out, forallb elem_ok l = true ->
  extract (body_src l ++ r) out false false = None \/ extract (body_src l ++ r) out false false = extract r out false false.
Proof.
  induction l as [|e l IH]; intros r out H; [now right|].
  cbn [forallb] in H. apply andb_true_iff in H as [He H]. cbn [body_src flat_map]. fold (body_src l).
  destruct e as [c|c]; cbn [elem_src app elem_ok] in *; cbn [extract].
  - replace (c =? 34) with false by lia. cbn [andb]. destruct (is_space c); [apply IH; auto|now left].
  - left. reflexivity.
Qed.

(** Once a closing quote has been missed the result is [None]. *)
Lemma extract_lost : forall ls sp out, lits_ok ls = true -> forallb is_space sp = true ->
  extract (lits_src ls sp) out true false = None.
Proof.
  induction ls as [|[s l] ls IH]; intros sp out H Hsp; unfold lits_src in *; cbn [flat_map].
  - cbn [app]. rewrite <- (app_nil_r sp), extract_space_in by auto. reflexivity.
  - cbn [lits_ok forallb] in H. apply andb_true_iff in H as [H0 H]. apply andb_true_iff in H0 as [Hs Hl].
    rewrite <- !app_assoc. rewrite extract_space_in by auto. cbn [app extract].
    change ((34 =? 34) && negb false) with true. cbv iota. cbn [negb]. rewrite <- app_assoc.
    destruct (extract_body_out l ([34] ++ flat_map (fun '(s0, l0) => s0 ++ 34 :: body_src l0 ++ [34]) ls ++ sp) (out ++ s) Hl) as [-> | ->]; auto.
    cbn [app extract]. change ((34 =? 34) && negb false) with true. cbv iota. cbn [negb]. apply IH; auto.
Qed.

Lemma extract_lits : forall ls sp out, lits_ok ls = true -> forallb is_space sp = true ->
  extract (lits_src ls sp) out false false =
  if existsb (fun '(_, l) => ends_bsl l) ls then None else Some (out ++ contents ls).
Proof.
  induction ls as [|[s l] ls IH]; intros sp out H Hsp; unfold lits_src in *; cbn [flat_map existsb contents].
  - cbn [app]. rewrite <- (app_nil_r sp), extract_space_out by auto. cbn [extract]. now rewrite app_nil_r.
  - cbn [lits_ok forallb] in H. apply andb_true_iff in H as [H0 H]. apply andb_true_iff in H0 as [Hs Hl].
    rewrite <- !app_assoc. rewrite extract_space_out by auto. cbn [app extract].
    change ((34 =? 34) && negb false) with true. cbv iota. cbn [negb]. rewrite <- app_assoc.
    rewrite extract_body by auto. rewrite aft_ends. cbn [app extract]. change (34 =? 34) with true.
    destruct (ends_bsl l); cbn [negb andb orb].
    + change (34 =? c_bsl) with false. apply extract_lost; auto.
    + rewrite IH by auto. destruct (existsb _ ls); auto. now rewrite <- app_assoc.
Qed.

(** ** The scan for specifiers *)
Fixpoint re_all (P : Z -> Prop) (r : re) : Prop :=
  match r with
  | RChr f | RPlus f => forall c, f c = true -> P c
  | RSeq a b | RAlt a b => re_all P a /\ re_all P b
  | ROpt a | RGrp _ a => re_all P a
  end.

Lemma plus_all_class : forall (P : Z -> Prop) f s x, (forall c, f c = true -> P c) -> In x (plus_all f s) ->
  Forall P (rm_text x) /\ rm_text x ++ rm_rest x = s.
Proof.
  intros P f s. induction s as [|c s IH]; intros x Hf Hin; cbn [plus_all] in Hin; [destruct Hin|].
  destruct (f c) eqn:E; [|destruct Hin]. apply in_app_iff in Hin as [Hin|[<-|[]]].
  - apply in_map_iff in Hin. destruct Hin as (y & <- & Hy). destruct (IH y Hf Hy) as [A B]. cbn [rm_text rm_rest].
    split; [constructor; auto|]. cbn [app]. now rewrite B.
  - cbn [rm_text rm_rest]. split; [constructor; auto|reflexivity].
Qed.

Lemma rx_class : forall (P : Z -> Prop) r s x, re_all P r -> In x (rx r s) ->
  Forall P (rm_text x) /\ rm_text x ++ rm_rest x = s.
Proof.
  intros P. induction r as [f|a IHa b IHb|a IHa b IHb|a IHa|f|k a IHa]; intros s x HP Hin; cbn [rx re_all] in *.
  - destruct s as [|c s]; [destruct Hin|]. destruct (f c) eqn:E; [|destruct Hin]. destruct Hin as [<-|[]].
    cbn [rm_text rm_rest]. split; [constructor; auto|reflexivity].
  - apply in_flat_map in Hin. destruct Hin as (y & Hy & Hin). apply in_map_iff in Hin. destruct Hin as (z & <- & Hz).
    destruct HP as [P1 P2]. destruct (IHa _ _ P1 Hy) as [A1 A2]. destruct (IHb _ _ P2 Hz) as [B1 B2].
    cbn [rm_text rm_rest]. split; [apply Forall_app; auto|]. now rewrite <- app_assoc, B2.
  - apply in_app_iff in Hin. destruct HP as [P1 P2]. destruct Hin as [Hin|Hin]; auto.
  - apply in_app_iff in Hin. destruct Hin as [Hin|[<-|[]]]; auto. cbn [rm_text rm_rest]. split; [constructor|reflexivity].
  - eapply plus_all_class; eauto.
  - apply in_map_iff in Hin. destruct Hin as (y & <- & Hy). cbn [rm_text rm_rest]. auto.
Qed.

Definition plain (c : Z) : Prop := c <> c_pct /\ c <> c_bsl.

Lemma rset_plain : forall l, forallb (fun c => negb (c =? c_pct) && negb (c =? c_bsl)) l = true ->
  forall c, rset l c = true -> plain c.
Proof.
  intros l H c Hc. unfold rset, mem_char in Hc. apply existsb_exists in Hc. destruct Hc as (d & Hd & E).
  rewrite forallb_forall in H. specialize (H d Hd). unfold plain, c_pct, c_bsl in *. lia.
Qed.

Lemma lit_plain : forall d, d <> c_pct -> d <> c_bsl -> forall c, (d =? c) = true -> plain c.
Proof. intros d H1 H2 c E. unfold plain, c_pct, c_bsl in *. lia. Qed.

Definition spec_tl : re := match spec_re with RSeq _ b => b | r => r end.

Lemma spec_tl_plain : re_all plain spec_tl.
Proof.
  cbn -[rset is_dig Z.eqb]. repeat match goal with |- _ /\ _ => split end;
    try (apply rset_plain; reflexivity);
    try (apply lit_plain; intro X; vm_compute in X; discriminate X);
    intros c H; unfold is_dig, plain, c_pct, c_bsl in *; lia.
Qed.

(** Only the first character of a specifier is a per cent sign. *)
Lemma spec_match : forall s g m t, rx_first spec_re s = Some (RM g m t) ->
  m ++ t = s /\ exists m', m = c_pct :: m' /\ Forall plain m'.
Proof.
  intros s g m t H. unfold rx_first in H.
  assert (Hin : In (RM g m t) (rx spec_re s)).
  { destruct (rx spec_re s); [discriminate H|left; cbn [hd_error] in H; congruence]. }
  clear H. change spec_re with (RSeq (rlit c_pct) spec_tl) in Hin.
  change (rx (RSeq (rlit c_pct) spec_tl) s) with
    (flat_map (fun x => map (fun y => RM (rm_caps x ++ rm_caps y) (rm_text x ++ rm_text y) (rm_rest y))
                             (rx spec_tl (rm_rest x))) (rx (rlit c_pct) s)) in Hin.
  apply in_flat_map in Hin. destruct Hin as (x & Hx & Hin).
  apply in_map_iff in Hin. destruct Hin as (y & E2 & Hy).
  destruct s as [|c s]; [destruct Hx|]. change (rx (rlit c_pct) (c :: s)) with (if c_pct =? c then [RM [] [c] s] else []) in Hx.
  destruct (c_pct =? c) eqn:E; [|destruct Hx]. destruct Hx as [<-|[]].
  cbn [rm_caps rm_text rm_rest app] in *. assert (c = c_pct) as -> by lia.
  destruct (rx_class plain spec_tl _ _ spec_tl_plain Hy) as [A B].
  apply (f_equal (fun z => (rm_text z, rm_rest z))) in E2. cbn [rm_text rm_rest] in E2.
  assert (m = c_pct :: rm_text y /\ t = rm_rest y) as [-> ->] by (split; congruence).
  split; [cbn [app]; now rewrite B|]. eauto.
Qed.

(** ** Nothing is lost, whatever the format *)
Lemma firstn_slice : forall a b (s : list Z), (a <= b)%nat -> firstn a s ++ pyslice a b s = firstn b s.
Proof.
  intros a b s H. unfold pyslice. replace (firstn b s) with (firstn (a + (b - a)) s) by (f_equal; lia).
  generalize (b - a)%nat. clear. intro k. revert s. induction a as [|a IH]; intro s; [reflexivity|].
  destruct s as [|c s]; [cbn [firstn skipn app Nat.add]; now rewrite firstn_nil|].
  cbn [firstn skipn app Nat.add]. now rewrite IH.
Qed.

Lemma skipn_nth : forall i (s : list Z) c r, skipn i s = c :: r -> nth i s 0 = c /\ (i < length s)%nat /\ skipn (S i) s = r.
Proof.
  induction i as [|i IH]; intros s c r H.
  - cbn [skipn] in H. subst s. cbn [nth length skipn]. split; [reflexivity|split; [lia|reflexivity]].
  - destruct s as [|d s]; [discriminate H|]. cbn [skipn] in H. destruct (IH s c r H) as (A & B & C).
    cbn [nth length]. split; [exact A|split; [lia|exact C]].
Qed.

Lemma skipn_nth_k : forall k i (s m t : list Z), skipn i s = m ++ t -> (k < length m)%nat -> nth (i + k) s 0 = nth k m 0.
Proof.
  intros k i s m t H Hk. rewrite <- (firstn_skipn i s) at 1. rewrite H.
  assert (Hi : (i < length s)%nat).
  { destruct (Nat.lt_ge_cases i (length s)); auto. rewrite skipn_all2 in H by lia. destruct m; [cbn in Hk; lia|discriminate H]. }
  rewrite app_nth2; rewrite firstn_length_le by lia; [|lia]. replace (i + k - i)%nat with k by lia. now rewrite app_nth1.
Qed.

Definition scan_inv (fmt : list Z) (i start : nat) (ms : list (caps * list Z)) : Prop :=
  concat (map snd ms) = firstn start fmt /\ (start <= length fmt)%nat /\ (ms = [] -> start = 0%nat) /\
  (forall j, (i <= j < start)%nat -> plain (nth j fmt 0)).

Lemma py_scan_cover : forall fuel fmt i cp start ms ms' start',
  scan_inv fmt i start ms -> py_scan fuel fmt i cp start ms = Some (ms', start') ->
  concat (map snd ms') = firstn start' fmt /\ (ms' = [] -> start' = 0%nat).
Proof.
  induction fuel as [|fuel IH]; intros fmt i cp start ms ms' start' I H; cbn [py_scan] in H.
  - apply some_inj in H. assert (ms' = ms /\ start' = start) as [-> ->] by (split; congruence). destruct I as (A & B & C & D). auto.
  - assert (Mono : forall i', (i <= i')%nat -> scan_inv fmt i' start ms).
    { intros i' Hi. destruct I as (A & B & C & D). repeat split; auto; apply D; lia. }
    destruct (skipn i fmt) as [|c r] eqn:E.
    { apply some_inj in H. assert (ms' = ms /\ start' = start) as [-> ->] by (split; congruence). destruct I as (A & B & C & D). auto. }
    destruct (c =? c_bsl) eqn:Eb; [eapply IH; [|exact H]; apply Mono; lia|].
    destruct (c =? c_pct) eqn:Ep; [|eapply IH; [|exact H]; apply Mono; lia].
    destruct ((cp + 1) mod 2 =? 1); [|eapply IH; [|exact H]; apply Mono; lia].
    destruct (rx_first spec_re (c :: r)) as [[g m t]|] eqn:Er.
    2: { destruct r as [|c2 r]; [discriminate H|]. destruct (c2 =? c_pct); [|discriminate H].
         eapply IH; [|exact H]; apply Mono; lia. }
    eapply IH; [|exact H]. destruct (spec_match _ _ _ _ Er) as (Em & m' & -> & Hm).
    destruct I as (A & B & C & D).
    destruct (skipn_nth _ _ _ _ E) as (Hn & Hlt & _).
    assert (Hs : (start <= i)%nat).
    { destruct (Nat.le_gt_cases start i) as [L|L]; auto. exfalso. assert (P := D i ltac:(lia)).
      rewrite Hn in P. unfold plain in P. lia. }
    assert (Hl : (i + length (c_pct :: m') <= length fmt)%nat).
    { assert (length (skipn i fmt) = length ((c_pct :: m') ++ t)) as L by congruence.
      rewrite skipn_length, app_length in L. lia. }
    unfold scan_inv. split; [|split; [exact Hl|split]].
    + rewrite map_app, concat_app, A. cbn [map snd concat]. rewrite app_nil_r. apply firstn_slice. lia.
    + intro X. destruct ms; discriminate X.
    + intros j Hj. cbn [length] in Hj. replace j with (i + S (j - S i))%nat by lia.
      rewrite (skipn_nth_k (S (j - S i)) i fmt (c_pct :: m') t) by (cbn [length]; try congruence; lia).
      cbn [nth]. rewrite Forall_forall in Hm. apply Hm. apply nth_In. lia.
Qed.

Lemma fold_rest_concat : forall ms r, ms <> [] -> concat (map snd (fold_rest ms r)) = concat (map snd ms) ++ r.
Proof.
  induction ms as [|[g s] ms IH]; intros r H; [congruence|].
  destruct ms as [|m2 ms]; [cbn [fold_rest map snd concat]; now rewrite !app_nil_r|].
  change (fold_rest ((g, s) :: m2 :: ms) r) with ((g, s) :: fold_rest (m2 :: ms) r).
  cbn [map concat]. cbn [snd].
  rewrite IH by discriminate. cbn [map concat]. now rewrite <- !app_assoc.
Qed.

Lemma all_some_sub : forall ms fs, all_some (map py_fmttype ms) = Some fs -> map ft_sub fs = map snd ms.
Proof.
  induction ms as [|m ms IH]; intros fs H; cbn [map all_some] in H; [apply some_inj in H; now subst fs|].
  unfold py_fmttype in H at 1. destruct (py_type _ _); [|discriminate H].
  destruct (all_some (map py_fmttype ms)) as [fs'|] eqn:E; [|discriminate H]. cbn [option_map] in H.
  apply some_inj in H. subst fs. cbn [map ft_sub]. f_equal. auto.
Qed.

Lemma split_cover : forall fmt fs, splitAndParse fmt = Some fs -> concat (map ft_sub fs) = fmt.
Proof.
  intros fmt fs H. unfold splitAndParse in H.
  destruct (py_scan (length fmt) fmt 0 0 0 []) as [[ms start]|] eqn:E; [|discriminate H].
  assert (I : scan_inv fmt 0 0 []) by (unfold scan_inv; split; [reflexivity|split; [lia|split; [auto|intros; lia]]]).
  destruct (py_scan_cover _ _ _ _ _ _ _ _ I E) as (A & B).
  destruct ms as [|m ms].
  - apply some_inj in H. subst fs. cbn [map ft_sub concat]. apply app_nil_r.
  - apply all_some_sub in H. rewrite H, fold_rest_concat by discriminate. rewrite A. apply firstn_skipn.
Qed.

(** ** The scan of a printf format *)
Definition field_of_width (w : width) : field :=
  match w with WNone => FNone | WNum ds => FNum (dec_val ds) | WStar => FStar end.
Definition field_of_prec (p : prec) : field :=
  match p with PrNone => FNone | PrNum ds => FNum (dec_val ds) | PrStar => FStar end.

Fixpoint pms (acc : list Z) (ps : list piece) : list (spec * list Z) * list Z :=
  match ps with
  | [] => ([], acc)
  | Conv sp :: r => let '(ms, t) := pms [] r in ((sp, acc ++ render_spec sp) :: ms, t)
  | p :: r => pms (acc ++ render_piece p) r
  end.

Definition m_of (x : spec * list Z) : caps * list Z := (spec_caps (fst x), snd x).

Lemma skipn_len : forall (a b : list Z), skipn (length a) (a ++ b) = b.
Proof. induction a; intros; [reflexivity|cbn [length app skipn]; auto]. Qed.

Lemma slice_mid : forall (p a b r : list Z) n, n = length p -> pyslice n (length (p ++ a) + length b) (p ++ a ++ b ++ r) = a ++ b.
Proof.
  intros p a b r n ->. unfold pyslice. rewrite skipn_len, app_length.
  replace (length p + length a + length b - length p)%nat with (length (a ++ b)) by (rewrite app_length; lia).
  rewrite app_assoc, firstn_app, Nat.sub_diag, firstn_O, app_nil_r. apply firstn_all.
Qed.

Lemma skip_plain : forall q fuel pre r cp start ms, Forall plain q -> (length q <= fuel)%nat -> q <> [] ->
  py_scan fuel (pre ++ q ++ r) (length pre) cp start ms =
  py_scan (fuel - length q) (pre ++ q ++ r) (length (pre ++ q)) 0 start ms.
Proof.
  induction q as [|c q IH]; intros fuel pre r cp start ms HF Hl Hn; [congruence|].
  inversion HF as [|x l [P1 P2] HF']; subst x l. cbn [length] in *. destruct fuel as [|fuel]; [lia|].
  cbn [py_scan]. rewrite skipn_len. cbn [app].
  replace (c =? c_bsl) with false by lia. replace (c =? c_pct) with false by lia.
  destruct q as [|d q].
  - cbn [length app]. rewrite app_length. cbn [length]. rewrite Nat.add_1_r. f_equal. lia.
  - specialize (IH fuel (pre ++ [c]) r 0 start ms HF' ltac:(lia) ltac:(discriminate)).
    rewrite <- !app_assoc in IH. cbn [app] in IH.
    replace (length (pre ++ [c])) with (S (length pre)) in IH by (rewrite app_length; cbn [length]; lia).
    cbn [app]. rewrite IH. f_equal.
Qed.

Lemma spec_plain : forall sp, spec_ok sp = true -> nat_prec (sp_prec sp) = true -> Forall plain (tl (render_spec sp)) /\ tl (render_spec sp) <> [].
Proof.
  intros sp H Hn. pose proof (first_rx _ _ _ _ _ (first_spec sp [] H Hn)) as Hrx.
  destruct (spec_match _ _ _ _ Hrx) as (_ & m' & E & HF). rewrite E. cbn [tl]. split; auto.
  intro X. rewrite X in E. unfold render_spec in E. apply (f_equal (@length Z)) in E. cbn [length] in E. rewrite !app_length in E. cbn [length] in E. lia.
Qed.

Lemma py_scan_render : forall n ps fuel p0 acc cp ms,
  (length ps <= n)%nat -> fmt_ok ps = true -> esc_ok ps = true -> natural ps = true ->
  (length (render ps) <= fuel)%nat -> cp mod 2 = 0 ->
  exists start', py_scan fuel (p0 ++ acc ++ render ps) (length (p0 ++ acc)) cp (length p0) ms
      = Some (ms ++ map m_of (fst (pms acc ps)), start') /\
    skipn start' (p0 ++ acc ++ render ps) = snd (pms acc ps).
Proof.
  assert (Done : forall fuel p0 acc cp ms, exists start',
     py_scan fuel (p0 ++ acc ++ []) (length (p0 ++ acc)) cp (length p0) ms = Some (ms ++ [], start') /\
     skipn start' (p0 ++ acc ++ []) = acc).
  { intros. exists (length p0). rewrite !app_nil_r, skipn_len. split; [|reflexivity].
    destruct fuel; [reflexivity|]. cbn [py_scan]. rewrite skipn_all. reflexivity. }
  induction n as [|n IH]; intros ps fuel p0 acc cp ms Hn Hok He Hnat Hfu Hcp.
  { destruct ps; [|cbn in Hn; lia]. apply Done. }
  destruct ps as [|p ps]; [apply Done|].
  cbn [length] in Hn. rewrite render_cons in *. rewrite app_length in Hfu.
  unfold fmt_ok in Hok. cbn [forallb] in Hok. apply andb_true_iff in Hok. destruct Hok as [Hp Hok].
  fold (fmt_ok ps) in Hok. pose proof (length_render_piece p) as Lp.
  destruct fuel as [|fuel]; [lia|].
  assert (Hsk : forall x, skipn (length (p0 ++ acc)) (p0 ++ acc ++ x) = x) by (intro; rewrite app_assoc; apply skipn_len).
  destruct p as [c| |sp].
  - cbn [render_piece app length] in *. cbn [esc_ok] in He. cbn [pms render_piece].
    change (natural (Lit c :: ps)) with (natural ps) in Hnat.
    assert (Hc : (c =? c_pct) = false) by (cbn [piece_ok] in Hp; unfold c_pct in *; lia).
    cbn [py_scan]. rewrite Hsk, Hc.
    destruct (c =? c_bsl) eqn:Eb.
    + destruct ps as [|[c'| |sp'] ps]; try discriminate He.
      * cbn [render concat map pms fst snd]. exists (length p0). rewrite skipn_len, app_nil_r. split; [|reflexivity].
        destruct fuel; [reflexivity|]. cbn [py_scan]. rewrite skipn_all2; [reflexivity|].
        rewrite !app_length. cbn [length]. lia.
      * rewrite render_cons in *. cbn [render_piece app length pms] in *.
        change (natural (Lit c' :: ps)) with (natural ps) in Hnat.
        unfold fmt_ok in Hok. cbn [forallb] in Hok. apply andb_true_iff in Hok.
        destruct (IH ps fuel p0 ((acc ++ [c]) ++ [c']) cp ms) as (s' & A & B); auto; try lia; try tauto.
        exists s'. rewrite <- !app_assoc in *. cbn [app] in *.
        replace (length (p0 ++ acc ++ [c; c'])) with (S (S (length (p0 ++ acc)))) in A by (rewrite !app_length; cbn [length]; lia).
        auto.
    + destruct (IH ps fuel p0 (acc ++ [c]) 0 ms) as (s' & A & B); auto; try lia.
      exists s'. rewrite <- !app_assoc in *. cbn [app] in *.
      replace (length (p0 ++ acc ++ [c])) with (S (length (p0 ++ acc))) in A by (rewrite !app_length; cbn [length]; lia).
      auto.
  - cbn [render_piece app length] in *. destruct fuel as [|fuel]; [lia|]. cbn [esc_ok] in He. cbn [pms render_piece].
    change (natural (Pct :: ps)) with (natural ps) in Hnat.
    cbn [py_scan]. rewrite Hsk. change (c_pct =? c_bsl) with false. change (c_pct =? c_pct) with true. cbv iota zeta.
    replace ((cp + 1) mod 2 =? 1) with true by lia. rewrite rx_pct_pct.
    change (c_pct =? c_pct) with true. cbv iota.
    destruct (IH ps fuel p0 (acc ++ [c_pct; c_pct]) (cp + 1 + 1) ms) as (s' & A & B); auto; try lia.
    exists s'. rewrite <- !app_assoc in *. cbn [app] in *.
    replace (length (p0 ++ acc ++ [c_pct; c_pct])) with (S (S (length (p0 ++ acc)))) in A by (rewrite !app_length; cbn [length]; lia).
    replace (skipn (S (length (p0 ++ acc))) (p0 ++ acc ++ c_pct :: c_pct :: render ps)) with (c_pct :: render ps).
    2: { replace (p0 ++ acc ++ c_pct :: c_pct :: render ps) with ((p0 ++ acc ++ [c_pct]) ++ c_pct :: render ps) by (rewrite <- !app_assoc; reflexivity).
         replace (S (length (p0 ++ acc))) with (length (p0 ++ acc ++ [c_pct])) by (rewrite !app_length; cbn [length]; lia).
         now rewrite skipn_len. }
    change (c_pct =? c_bsl) with false. change (c_pct =? c_pct) with true. cbv iota zeta.
    replace ((cp + 1 + 1) mod 2 =? 1) with false by lia. auto.
  - cbn [render_piece] in *. cbn [piece_ok] in Hp. cbn [esc_ok] in He. unfold natural in Hnat. cbn [convs forallb] in Hnat.
    apply andb_true_iff in Hnat. destruct Hnat as [Hnp Hnat]. fold (natural ps) in Hnat.
    pose proof (first_rx _ _ _ _ _ (first_spec sp (render ps) Hp Hnp)) as Hrx.
    destruct (spec_plain sp Hp Hnp) as [HF HN].
    set (q := tl (render_spec sp)) in *.
    assert (Eq : render_spec sp = c_pct :: q) by reflexivity.
    cbn [py_scan]. rewrite Hsk. rewrite Eq in *. cbn [app length] in *.
    change (c_pct =? c_bsl) with false. change (c_pct =? c_pct) with true. cbv iota zeta.
    replace ((cp + 1) mod 2 =? 1) with true by lia. rewrite Hrx.
    cbn [pms]. destruct (IH ps (fuel - length q)%nat (p0 ++ acc ++ c_pct :: q) [] 0
      (ms ++ [(spec_caps sp, acc ++ c_pct :: q)])) as (s' & A & B); auto; try lia.
    exists s'. destruct (pms [] ps) as [ms1 t1]. cbn [fst snd] in *. rewrite app_nil_r in A. cbn [app] in A, B.
    pose proof (slice_mid p0 acc (c_pct :: q) (render ps) (length p0) eq_refl) as Sl. cbn [length app] in Sl. cbn [length app]. rewrite Sl.
    pose proof (skip_plain q fuel (p0 ++ acc ++ [c_pct]) (render ps) (cp + 1)
       (length (p0 ++ acc) + S (length q))%nat (ms ++ [(spec_caps sp, acc ++ c_pct :: q)]) HF ltac:(lia) HN) as Sk.
    rewrite <- !app_assoc in Sk, A, B. cbn [app] in Sk, A, B.
    replace (length (p0 ++ acc ++ [c_pct])) with (S (length (p0 ++ acc))) in Sk by (rewrite !app_length; cbn [length]; lia).
    replace (length (p0 ++ acc) + S (length q))%nat with (length (p0 ++ acc ++ c_pct :: q)) in * by (rewrite !app_length; cbn [length]; lia).
    replace ((p0 ++ acc ++ [c_pct]) ++ q) with (p0 ++ acc ++ c_pct :: q) in Sk by (rewrite <- !app_assoc; reflexivity).
    rewrite Sk. rewrite A. split; [|exact B]. rewrite <- app_assoc. cbn [app map m_of fst snd]. rewrite Eq. reflexivity.
Qed.

Lemma to_field_num : forall ds, ds <> [] -> forallb is_dig ds = true -> to_field ds = FNum (dec_val ds).
Proof.
  intros [|d ds] Hn H; [congruence|]. cbn [to_field]. cbn [forallb] in H. apply andb_true_iff in H. destruct H as [H _].
  replace (zlist_eqb (d :: ds) [c_star]) with false; [reflexivity|].
  cbn [zlist_eqb]. now rewrite dig_not_star.
Qed.

Lemma spec_fields : forall sp, spec_ok sp = true -> nat_prec (sp_prec sp) = true ->
  to_field (group 2 (spec_caps sp)) = field_of_width (sp_width sp) /\
  to_field (group 4 (spec_caps sp)) = field_of_prec (sp_prec sp).
Proof.
  intros sp H Hn. apply spec_ok_inv in H. destruct H as (_ & Hw & Hp & _).
  destruct sp as [fl w pr l c]; cbn [sp_flags sp_width sp_prec sp_len sp_conv] in *.
  assert (G2 : group 2 (spec_caps (Spec fl w pr l c)) = render_width w).
  { unfold spec_caps; cbn [sp_flags sp_width sp_prec sp_len sp_conv]. destruct fl, w as [|[|d ds]|], pr as [|[|e es]|], l; reflexivity. }
  assert (G4 : group 4 (spec_caps (Spec fl w pr l c)) = tl (render_prec pr)).
  { unfold spec_caps; cbn [sp_flags sp_width sp_prec sp_len sp_conv]. destruct fl, w as [|[|d ds]|], pr as [|[|e es]|], l; reflexivity. }
  rewrite G2, G4. split.
  - destruct w as [|ds|]; try reflexivity. cbn [render_width field_of_width width_ok] in *. destruct ds as [|d ds]; [discriminate|].
    apply andb_true_iff in Hw. destruct Hw as [Hw _]. apply to_field_num; [discriminate|exact Hw].
  - destruct pr as [|ds|]; try reflexivity. cbn [render_prec field_of_prec prec_ok nat_prec tl] in *. destruct ds as [|d ds]; [discriminate|].
    apply to_field_num; [discriminate|exact Hp].
Qed.

Lemma py_type_ok : forall sp, spec_ok sp = true ->
  py_type (sp_len sp) (sp_conv sp) = Some (ftype_of sp) /\ kind_of (ftype_of sp) = Some (conv_kind sp).
Proof.
  intros sp H. apply spec_ok_inv in H. destruct H as (_ & _ & _ & Hl).
  unfold conv_kind, ftype_of. destruct sp as [fl w pr l c]; cbn [sp_len sp_conv] in *. clear fl w pr.
  pose proof (len_ok_len _ _ Hl) as L. pose proof (len_ok_conv _ _ Hl) as C.
  repeat (destruct L as [L|L]; [subst l; in_chars C; (discriminate Hl || (split; vm_compute; reflexivity))|]).
  destruct L.
Qed.

(** A fragment as the preprocessor describes it, against its part of the format. *)
Definition ft_of (x : spec * list Z) : fmttype :=
  FmtType (ftype_of (fst x)) (field_of_width (sp_width (fst x))) (field_of_prec (sp_prec (fst x))) (snd x).

Lemma py_fmttype_ok : forall sp t, spec_ok sp = true -> nat_prec (sp_prec sp) = true ->
  py_fmttype (m_of (sp, t)) = Some (ft_of (sp, t)).
Proof.
  intros sp t H Hn. unfold py_fmttype, m_of, ft_of. cbn [fst snd].
  destruct (spec_groups sp H) as (_ & _ & -> & ->). cbn [hd0 hd].
  destruct (py_type_ok sp H) as [-> _]. destruct (spec_fields sp H Hn) as [-> ->]. reflexivity.
Qed.

Fixpoint fold_last (ms : list (spec * list Z)) (rest : list Z) : list (spec * list Z) :=
  match ms with
  | [] => []
  | [(g, s)] => [(g, s ++ rest)]
  | m :: ms' => m :: fold_last ms' rest
  end.

Lemma fold_rest_m : forall ms r, fold_rest (map m_of ms) r = map m_of (fold_last ms r).
Proof.
  induction ms as [|[g s] ms IH]; intro r; [reflexivity|]. destruct ms as [|m2 ms]; [reflexivity|].
  change (fold_last ((g, s) :: m2 :: ms) r) with ((g, s) :: fold_last (m2 :: ms) r).
  change (fold_rest (map m_of ((g, s) :: m2 :: ms)) r) with (m_of (g, s) :: fold_rest (map m_of (m2 :: ms)) r).
  cbn [map]. now rewrite <- IH.
Qed.

Definition good (x : spec * list Z) : Prop := spec_ok (fst x) = true /\ nat_prec (sp_prec (fst x)) = true.

Lemma all_some_ft : forall ms, Forall good ms -> all_some (map py_fmttype (map m_of ms)) = Some (map ft_of ms).
Proof.
  induction ms as [|[sp t] ms IH]; intro H; [reflexivity|]. inversion H as [|x l [H1 H2] H3]; subst.
  cbn [map all_some]. rewrite py_fmttype_ok by auto. rewrite IH by auto. reflexivity.
Qed.

Lemma pms_good : forall ps acc, fmt_ok ps = true -> natural ps = true -> Forall good (fst (pms acc ps)).
Proof.
  induction ps as [|p ps IH]; intros acc Hok Hn; [constructor|].
  unfold fmt_ok in Hok. cbn [forallb] in Hok. apply andb_true_iff in Hok. destruct Hok as [Hp Hok].
  destruct p as [c| |sp]; cbn [pms]; try (apply IH; auto).
  unfold natural in Hn. cbn [convs forallb] in Hn. apply andb_true_iff in Hn. destruct Hn as [Hn1 Hn2].
  specialize (IH [] Hok Hn2). destruct (pms [] ps) as [ms t]. cbn [fst] in *. constructor; auto. split; auto.
Qed.

Lemma fold_last_good : forall ms r, Forall good ms -> Forall good (fold_last ms r).
Proof.
  induction ms as [|[g s] ms IH]; intros r H; [constructor|]. inversion H as [|x l H1 H2]; subst.
  destruct ms as [|m2 ms]; [constructor; auto|].
  change (fold_last ((g, s) :: m2 :: ms) r) with ((g, s) :: fold_last (m2 :: ms) r). constructor; auto.
Qed.

(** The preprocessor's fragment as the decoder would hold it. *)
Definition is_star (f : field) : bool := match f with FStar => true | _ => false end.
Definition frag_of (f : fmttype) : frag := Frag (ft_type f) (is_star (ft_width f)) (is_star (ft_prec f)) (ft_sub f).

Lemma frag_ft : forall sp t, frag_of (ft_of (sp, t)) = Frag (ftype_of sp) (dyn_width sp) (dyn_prec sp) t.
Proof. intros sp t. unfold frag_of, ft_of, dyn_width, dyn_prec. cbn. destruct (sp_width sp), (sp_prec sp); reflexivity. Qed.

Lemma pms_pfrags : forall ps acc, pfrags acc ps = (map (fun x => frag_of (ft_of x)) (fst (pms acc ps)), snd (pms acc ps)).
Proof.
  induction ps as [|p ps IH]; intro acc; [reflexivity|].
  destruct p as [c| |sp]; cbn [pfrags pms]; try apply IH.
  rewrite IH. destruct (pms [] ps) as [ms t]. cbn [fst snd map]. now rewrite frag_ft.
Qed.

Lemma fold_last_frags : forall ms r,
  map (fun x => frag_of (ft_of x)) (fold_last ms r) = extend_last (map (fun x => frag_of (ft_of x)) ms) r.
Proof.
  induction ms as [|[g s] ms IH]; intro r; [reflexivity|]. destruct ms as [|m2 ms].
  - cbn [fold_last map extend_last]. now rewrite !frag_ft.
  - change (fold_last ((g, s) :: m2 :: ms) r) with ((g, s) :: fold_last (m2 :: ms) r). cbn [map].
    cbn [map] in IH. rewrite IH. rewrite frag_ft. reflexivity.
Qed.

Lemma pms_convs : forall ps acc, map fst (fst (pms acc ps)) = convs ps.
Proof.
  induction ps as [|p ps IH]; intro acc; [reflexivity|].
  destruct p as [c| |sp]; cbn [pms convs]; try apply IH.
  specialize (IH []). destruct (pms [] ps) as [ms t]. cbn [fst map] in *. now rewrite IH.
Qed.

Lemma fold_last_specs : forall ms r, map fst (fold_last ms r) = map fst ms.
Proof.
  induction ms as [|[g s] ms IH]; intro r; [reflexivity|]. destruct ms as [|m2 ms]; [reflexivity|].
  change (fold_last ((g, s) :: m2 :: ms) r) with ((g, s) :: fold_last (m2 :: ms) r). cbn [map]. now rewrite IH.
Qed.

(** All about the split of a printf format. *)
Lemma split_render : forall ps, fmt_ok ps = true -> esc_ok ps = true -> natural ps = true ->
  exists xs, splitAndParse (render ps) =
      Some (match xs with [] => [FmtType NONE FNone FNone (render ps)] | _ => map ft_of xs end) /\
    map fst xs = convs ps /\ Forall good xs /\
    map (fun x => frag_of (ft_of x)) xs = extend_last (fst (pfrags [] ps)) (snd (pfrags [] ps)).
Proof.
  intros ps Hok He Hn.
  destruct (py_scan_render (length ps) ps (length (render ps)) [] [] 0 []) as (s' & A & B); auto.
  cbn [app length] in A, B. exists (fold_last (fst (pms [] ps)) (snd (pms [] ps))).
  pose proof (pms_good ps [] Hok Hn) as G. pose proof (pms_pfrags ps []) as F. pose proof (pms_convs ps []) as Cv.
  unfold splitAndParse. rewrite A, B.
  split; [|split; [|split]].
  - destruct (fst (pms [] ps)) as [|x xs] eqn:E; [reflexivity|].
    change (map m_of (x :: xs)) with (m_of x :: map m_of xs). cbv iota.
    change (m_of x :: map m_of xs) with (map m_of (x :: xs)). rewrite fold_rest_m.
    rewrite all_some_ft by (apply fold_last_good; auto). f_equal.
    destruct (fold_last (x :: xs) (snd (pms [] ps))) eqn:E2; [|reflexivity].
    exfalso. pose proof (fold_last_specs (x :: xs) (snd (pms [] ps))) as Sp. rewrite E2 in Sp. discriminate Sp.
  - now rewrite fold_last_specs.
  - now apply fold_last_good.
  - rewrite fold_last_frags, F. reflexivity.
Qed.
