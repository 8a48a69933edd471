(** How processFile goes through lines of tokens. *)
From Coq Require Import String.
From Verif Require Import Base BaseProofs Chars Fmt FmtProofs Regex MicroCode MicroCodeProofs RingProofs DecodeProofs Preproc PreprocProofs PreprocLit Parser Prop_Parser Scanner SourceSpec.
Local Open Scope list_scope.
Ltac Zify.zify_post_hook ::= Z.div_mod_to_equations.

(** ** Steps *)

Definition reach (c c' : conf) : Prop := exists n, steps n c = Run c'.

Lemma steps_run : forall n m c c', steps n c = Run c' -> steps (n + m) c = steps m c'.
Proof.
  induction n as [|n IH]; intros m c c' H; cbn [steps Nat.add] in *; [now injection H as ->|].
  destruct (step c) as [c1|c1|]; try discriminate H. eauto.
Qed.
Lemma reach_refl : forall c, reach c c.
Proof. intro c. exists O. reflexivity. Qed.
Lemma reach_trans : forall a b c, reach a b -> reach b c -> reach a c.
Proof. intros a b c [n H] [m K]. exists (n + m)%nat. now rewrite (steps_run n m a b). Qed.
Lemma reach_step : forall a b, step a = Run b -> reach a b.
Proof. intros a b H. exists 1%nat. cbn [steps]. now rewrite H. Qed.

(** ** Text *)

Lemma name_eq : name = log_function.
Proof. reflexivity. Qed.
Lemma starts_begins : forall p s, starts p s = begins p s.
Proof. induction p as [|x p IH]; intros [|c s]; cbn [starts begins]; rewrite ?IH; reflexivity. Qed.
Lemma occurs_within : forall p s, occurs p s = within p s.
Proof. intros p s. induction s as [|c s IH]; cbn [occurs within]; rewrite starts_begins, ?IH; reflexivity. Qed.

Lemma within_app_l : forall p a b, within p (a ++ b) = false -> within p a = false.
Proof.
  intros p a b. assert (S : forall q a, begins q a = true -> begins q (a ++ b) = true).
  { induction q as [|x q IH]; intros a' H; [reflexivity|]. destruct a' as [|c a']; [discriminate H|]. cbn [begins app] in *. apply andb_true_iff in H as [-> H]. cbn [andb]. auto. }
  induction a as [|c a IH]; intro H.
  - cbn [within]. destruct (begins p []) eqn:E; auto. apply (S _ []) in E. destruct b; cbn [app within] in *; rewrite E in H; discriminate H.
  - cbn [app within] in *. apply orb_false_iff in H as [H1 H2]. rewrite IH by auto. destruct (begins p (c :: a)) eqn:E; auto.
    apply S in E. cbn [app] in E. congruence.
Qed.
Lemma within_app_r : forall p a b, within p (a ++ b) = false -> within p b = false.
Proof. induction a as [|c a IH]; intros b H; auto. cbn [app within] in H. apply orb_false_iff in H as [_ H]. auto. Qed.
Lemma within_here : forall p a b, within p (a ++ p ++ b) = true.
Proof.
  intros p a b. induction a as [|c a IH].
  - assert (B : begins p (p ++ b) = true) by (induction p as [|x p IH]; [reflexivity|]; cbn [app begins]; now rewrite Z.eqb_refl).
    cbn [app]. destruct (p ++ b); cbn [within]; now rewrite B.
  - cbn [app within]. rewrite IH. apply orb_true_r.
Qed.
(** Behind a character the pattern does not have. *)
Lemma begins_stop : forall p a c b, ~ In c p -> begins p (a ++ c :: b) = begins p a.
Proof.
  induction p as [|x p IH]; intros a c b H; [reflexivity|]. destruct a as [|d a]; cbn [app begins].
  - replace (c =? x) with false; [reflexivity|]. symmetry. apply Z.eqb_neq. intro E. apply H. now left.
  - rewrite IH; auto. intro K. apply H. now right.
Qed.
Lemma within_stop : forall p a c b, ~ In c p -> p <> [] -> within p a = false -> within p b = false -> within p (a ++ c :: b) = false.
Proof.
  intros p a c b H N H1 H2. induction a as [|d a IH].
  - cbn [app within]. rewrite H2, orb_false_r. apply (begins_stop p [] c b) in H. cbn [app] in H. rewrite H. now destruct p.
  - cbn [app within] in *. apply orb_false_iff in H1 as [H1 H3]. rewrite IH by auto. rewrite orb_false_r.
    change (d :: a ++ c :: b) with ((d :: a) ++ c :: b). now rewrite begins_stop.
Qed.
Lemma within_spaces : forall p n s, hd 0 p <> 32 -> p <> [] -> within p s = false -> within p (spaces n ++ s) = false.
Proof.
  intros p n s H N W. induction n as [|n IH]; [exact W|]. change (spaces (S n)) with (32 :: spaces n). cbn [app within]. rewrite IH, orb_false_r.
  destruct p as [|x p]; [congruence|]. cbn [begins hd] in *. replace (32 =? x) with false by lia. reflexivity.
Qed.

(** ** Lines *)

Fixpoint breaks (s : list Z) : list (list Z) * list Z :=
  match s with
  | [] => ([], [])
  | c :: r => let (F, P) := breaks r in
              if c =? 10 then ([c] :: F, P) else match F with [] => ([], c :: P) | l :: F' => ((c :: l) :: F', P) end
  end.

Definition glue (p : list Z) (ls : list (list Z)) : list (list Z) := match ls with [] => [] | l :: r => (p ++ l) :: r end.

Lemma split_nonempty : forall c r, split_lines (c :: r) <> [].
Proof. intros c r. cbn [split_lines]. destruct (c =? c_nl); [discriminate|]. destruct (split_lines r); discriminate. Qed.

Lemma split_breaks : forall s t, t <> [] -> split_lines (s ++ t) = fst (breaks s) ++ glue (snd (breaks s)) (split_lines t).
Proof.
  induction s as [|c s IH]; intros t H.
  - cbn [app breaks fst snd]. destruct (split_lines t); reflexivity.
  - cbn [app split_lines breaks]. rewrite IH by auto. change c_nl with 10. destruct (breaks s) as [F P]. cbn [fst snd].
    destruct (c =? 10); [reflexivity|]. destruct F as [|l F]; cbn [fst snd app]; [|reflexivity].
    destruct t as [|d t]; [congruence|]. pose proof (split_nonempty d t) as NE. destruct (split_lines (d :: t)); [congruence|reflexivity].
Qed.
Lemma breaks_none : forall s, ~ In 10 s -> breaks s = ([], s).
Proof.
  induction s as [|c s IH]; intro H; [reflexivity|]. cbn [breaks]. rewrite IH by (intro K; apply H; now right).
  replace (c =? 10) with false; [reflexivity|]. symmetry. apply Z.eqb_neq. intro E. apply H. now left.
Qed.
Lemma breaks_concat : forall s, concat (fst (breaks s)) ++ snd (breaks s) = s.
Proof.
  induction s as [|c s IH]; [reflexivity|]. cbn [breaks]. destruct (breaks s) as [F P]. cbn [fst snd] in IH. subst s.
  destruct (c =? 10); [reflexivity|]. destruct F; reflexivity.
Qed.
Lemma breaks_len : forall s, zlen (fst (breaks s)) = nls s.
Proof.
  unfold nls. induction s as [|c s IH]; [reflexivity|]. cbn [breaks filter]. destruct (breaks s) as [F P]. cbn [fst] in IH.
  rewrite (Z.eqb_sym 10 c). destruct (c =? 10); unfold zlen in *; cbn [fst length]; [lia|]. destruct F; cbn [fst length] in *; lia.
Qed.
Lemma split_concat : forall s, concat (split_lines s) = s.
Proof.
  induction s as [|c s IH]; [reflexivity|]. cbn [split_lines]. destruct (c =? c_nl); cbn [concat app]; [now rewrite IH|].
  destruct (split_lines s) as [|l ls]; cbn [concat app] in *; now rewrite <- IH.
Qed.
Lemma split_line : forall a t, ~ In 10 a -> split_lines (a ++ 10 :: t) = (a ++ [10]) :: split_lines t.
Proof. intros a t H. rewrite split_breaks by discriminate. rewrite breaks_none by auto. reflexivity. Qed.
Lemma split_app : forall a t, split_lines (a ++ 10 :: t) = split_lines (a ++ [10]) ++ split_lines t.
Proof.
  intros a t. rewrite split_breaks by discriminate. rewrite (split_breaks a [10]) by discriminate. rewrite <- app_assoc. reflexivity.
Qed.
Lemma nls_app : forall a b, nls (a ++ b) = nls a + nls b.
Proof. intros a b. unfold nls, zlen. rewrite filter_app, app_length. lia. Qed.
Lemma nls_none : forall s, nls s = 0 <-> ~ In 10 s.
Proof.
  intro s. unfold nls, zlen. induction s as [|c s IH]; cbn [filter length In]; [split; auto|]. destruct (Z.eqb_spec 10 c) as [E|NE].
  - cbn [length]. split; [lia|]. intro H. exfalso. apply H. auto.
  - rewrite IH. split; [intros H [K|K]; congruence || auto|intros H K; apply H; auto].
Qed.
Lemma column_none : forall s p, ~ In 10 s -> column p s = (p + length s)%nat.
Proof.
  induction s as [|c s IH]; intros p H; cbn [column length]; [lia|]. replace (c =? 10) with false.
  - rewrite IH; [lia|]. intro K. apply H. now right.
  - symmetry. apply Z.eqb_neq. intro E. apply H. now left.
Qed.
Lemma column_app : forall a b p, column p (a ++ b) = column (column p a) b.
Proof. induction a as [|c a IH]; intros b p; cbn [app column]; auto. Qed.
Lemma column_breaks : forall s p, column p s = match fst (breaks s) with [] => (p + length (snd (breaks s)))%nat | _ => length (snd (breaks s)) end.
Proof.
  induction s as [|c s IH]; intro p; cbn [column breaks]; [cbn; lia|]. rewrite IH. destruct (breaks s) as [F P]. cbn [fst snd].
  destruct (c =? 10); cbn [fst snd]; destruct F; cbn [fst snd length]; lia.
Qed.

Lemma locate_here : forall L l n r, (n < length l)%nat -> locate (length (concat L) + n) (L ++ l :: r) = Some (L, l, n, r).
Proof.
  induction L as [|x L IH]; intros l n r H; cbn [concat app locate length].
  - cbn [Nat.add]. now rewrite (proj2 (Nat.ltb_lt _ _) H).
  - rewrite app_length. replace (Nat.ltb (length x + length (concat L) + n) (length x)) with false by (symmetry; apply Nat.ltb_ge; lia).
    replace (length x + length (concat L) + n - length x)%nat with (length (concat L) + n)%nat by lia. now rewrite IH.
Qed.

(** ** Directives *)

Lemma digits_val : forall ds acc seen r, Forall is_digit ds -> ds <> [] \/ seen = true -> (match r with c :: _ => in_rng 48 57 c = false | [] => True end) ->
  digits (ds ++ r) acc seen = Some (fold_left (fun a d => a * 10 + (d - 48)) ds acc, r).
Proof.
  induction ds as [|d ds IH]; intros acc seen r H N R; cbn [app digits fold_left].
  - destruct N as [N| ->]; [congruence|]. destruct r as [|c r]; [reflexivity|]. cbn [digits]. now rewrite R.
  - inversion H as [|? ? D DS]; subst. unfold is_digit in D. replace (in_rng 48 57 d) with true by (unfold in_rng; lia). apply IH; auto.
Qed.

Lemma last_quote : forall f r, ~ In 34 r -> to_last_quote (f ++ 34 :: r) = Some f.
Proof.
  induction f as [|c f IH]; intros r H.
  - assert (E : to_last_quote r = None).
    { induction r as [|c r IH]; [reflexivity|]. cbn [to_last_quote]. rewrite IH by (intro K; apply H; now right).
      replace (c =? c_quote) with false; [reflexivity|]. symmetry. apply Z.eqb_neq. intro E. apply H. now left. }
    cbn [app to_last_quote]. rewrite E. reflexivity.
  - cbn [app to_last_quote]. now rewrite IH.
Qed.

Lemma directive_eq : forall n f fl, 0 <= n -> ~ In 34 fl ->
  directive (chars "# " ++ dec_str n ++ [32] ++ quoted f ++ fl) = Some (n, f).
Proof.
  intros n f fl Hn H. destruct (dec_str_spec n Hn) as (N & D & V). unfold directive. cbn [chars app]. cbv iota.
  change ((35 =? c_hash) && (32 =? c_sp)) with true. cbv iota.
  unfold quoted. cbn [app]. rewrite digits_val by (auto; reflexivity). cbv iota.
  change ((32 =? c_sp) && (34 =? c_quote)) with true. cbv iota. rewrite <- app_assoc. cbn [app]. rewrite last_quote by auto. cbn [option_map].
  f_equal. f_equal. rewrite <- V at 2. unfold dec_val. clear. generalize 0. induction (dec_str n) as [|d ds IH]; intro a; cbn [fold_left]; auto.
  rewrite IH. now replace (a * 10 + (d - 48)) with (10 * a + (d - 48)) by lia.
Qed.
Lemma not_directive : forall line, hd 0 line <> 35 -> directive line = None.
Proof.
  intros [|h [|b r]] H; try reflexivity. cbn [directive hd] in *. unfold c_hash. replace (h =? 35) with false by lia. reflexivity.
Qed.

(** ** In a line *)

(** Between [Y] and [X] the comparison with the name makes no difference, once it
    has begun. *)
Definition agree (Y X : list Z) : Prop := forall k, (1 <= k <= 8)%nat -> match_name (skipn k name) X = Some (starts (skipn k name) Y).

Ltac each_k k := destruct k as [|[|[|[|[|[|[|[|[|k]]]]]]]]]; [lia| | | | | | | | |lia].
Lemma agree_cons : forall c Y X, agree Y X -> agree (c :: Y) (c :: X).
Proof.
  intros c Y X H k Hk. each_k k; try reflexivity.
  all: match goal with |- match_name (skipn ?k _) _ = _ => pose proof (H (S k)) as H' end; change name with [78; 65; 78; 79; 95; 76; 79; 71] in *;
       cbn [skipn match_name starts] in *; destruct (c =? _); cbn [andb]; [apply H'; lia|reflexivity].
Qed.
Lemma agree_app : forall s Y X, agree Y X -> agree (s ++ Y) (s ++ X).
Proof. induction s as [|c s IH]; intros Y X H; [exact H|]. cbn [app]. apply agree_cons. auto. Qed.
Lemma agree_stop : forall c Y X, ~ In c name -> agree (c :: Y) (c :: X).
Proof.
  intros c Y X H k Hk. change name with [78; 65; 78; 79; 95; 76; 79; 71] in *. cbn [In] in H.
  each_k k; cbn [skipn match_name starts]; try reflexivity;
  match goal with |- context [c =? ?x] => replace (c =? x) with false by (symmetry; apply Z.eqb_neq; intro E; apply H; subst c; tauto) end; reflexivity.
Qed.
Lemma agree_name : forall X, agree (chars "NANO_LO") (name ++ X).
Proof. intros X k Hk. each_k k; reflexivity. Qed.

Lemma no_match : forall c Y X, agree Y X -> starts name (c :: Y) = false -> match_name name (c :: X) = Some false.
Proof.
  intros c Y X H S. change name with (78 :: skipn 1 name) in *. cbn [match_name starts] in *. destruct (c =? 78); [|reflexivity]. cbn [andb] in S.
  rewrite (H 1%nat) by lia. now rewrite S.
Qed.

(** The characters of code outside of string literals. *)
Definition elems (t : tok) : list celem :=
  match t with TStr _ => [] | TChr l => Ch 39 :: l ++ [Ch 39] | TComma => [Ch 44] | TOpen k => [Ch (opening k)] | TClose k => [Ch (closing k)] | TC c => [Ch c] end.
Definition quiet_src (t : tok) : list Z := match t with TStr _ => [34; 34] | _ => tok_src t end.
Definition code_text (l : list tok) : list Z := flat_map quiet_src l.
Definition dequoted (e : celem) : bool := match e with Ch c => negb (c =? 34) && negb (c =? c_bsl) | Esc _ => true end.
Definition unquoted (t : tok) : bool := match t with TChr l => forallb (fun e => match e with Ch c => negb (c =? 34) | _ => true end) l | _ => true end.

Definition at_ (c : conf) (line : list Z) (off : nat) (q e : bool) (lc : Z) : conf :=
  Conf (c_done c) (c_lines c) (Some (Inner line off q e)) lc (c_file c) (c_line c) (c_first c) (c_mark c) (c_stmts c).
Definition lastok (s : list Z) (lc lc' : Z) : Prop :=
  (s = [] -> lc' = lc) /\ forall s0 c, s = s0 ++ [c] -> c <> 78 -> lc' = c.

Lemma lastok_app : forall a b l l1 l2, lastok a l l1 -> lastok b l1 l2 -> lastok (a ++ b) l l2.
Proof.
  intros a b l l1 l2 [A1 A2] [B1 B2]. split.
  - intro E. apply app_eq_nil in E as [E1 E2]. rewrite B1, A1; auto.
  - intros s0 c E N. destruct b as [|d b].
    + rewrite app_nil_r in E. rewrite B1 by auto. eauto.
    + destruct (@exists_last _ (d :: b)) as (b0 & x & Eb); [discriminate|]. rewrite Eb in *. rewrite app_assoc in E.
      apply app_inj_tail in E as [_ ->]. eauto.
Qed.
Lemma lastok_one : forall c l l', (c <> 78 -> l' = c) -> lastok [c] l l'.
Proof.
  intros c l l' H. split; [discriminate|]. intros s0 d E N. destruct s0 as [|x s0]; cbn [app] in E; [injection E as ->; auto|].
  destruct s0; discriminate E.
Qed.

Lemma skipn_next : forall (line : list Z) off ch r, skipn off line = ch :: r -> skipn (S off) line = r.
Proof. induction line as [|x line IH]; intros [|off] ch r H; cbn [skipn] in *; try discriminate H; [now injection H as _ ->|]. eapply IH; eauto. Qed.

(** One character of code. *)
Lemma code_char : forall c line off lc ch X Y, skipn off line = ch :: X -> ch <> 34 -> ch <> 92 ->
  agree Y X -> starts name (ch :: Y) = false ->
  exists lc', reach (at_ c line off false false lc) (at_ c line (S off) false false lc') /\ (ch <> 78 -> lc' = ch).
Proof.
  intros c line off lc ch X Y S N1 N2 A M. pose proof (no_match _ _ _ A M) as E.
  destruct (Z.eq_dec ch 78) as [->|N3].
  - exists lc. split; [|congruence]. apply reach_step. unfold step, at_, next_char. cbn [c_in in_off in_line in_escape in_quotes]. rewrite S. cbv iota.
    change (78 =? c_bsl) with false. change (78 =? c_quote) with false. change (78 =? hd 0 name) with true. cbn [orb andb negb]. cbv iota. rewrite E. reflexivity.
  - exists ch. split; [|auto]. apply reach_step. unfold step, at_, next_char. cbn [c_in in_off in_line in_escape in_quotes]. rewrite S. cbv iota.
    replace (ch =? c_bsl) with false by (unfold c_bsl; lia). replace (ch =? c_quote) with false by (unfold c_quote; lia).
    change (hd 0 name) with 78. replace (ch =? 78) with false by lia. reflexivity.
Qed.
(** An escaped character. *)
Lemma esc_char : forall c line off q lc ch X, skipn off line = 92 :: ch :: X ->
  reach (at_ c line off q false lc) (at_ c line (S (S off)) q false ch).
Proof.
  intros c line off q lc ch X S. apply (reach_trans _ (at_ c line (Datatypes.S off) q true 92)); apply reach_step; unfold step, at_, next_char;
  cbn [c_in in_off in_line in_escape in_quotes].
  - rewrite S. reflexivity.
  - rewrite (skipn_next _ _ _ _ S). cbv iota. rewrite orb_true_r. reflexivity.
Qed.

Lemma code_elems : forall es c line off lc X Y, skipn off line = body_src es ++ X -> forallb dequoted es = true ->
  agree Y X -> within name (body_src es ++ Y) = false ->
  exists lc', reach (at_ c line off false false lc) (at_ c line (off + length (body_src es)) false false lc') /\
    (es = [] -> lc' = lc) /\ (forall es0 d, es = es0 ++ [Ch d] -> d <> 78 -> lc' = d).
Proof.
  induction es as [|e es IH]; intros c line off lc X Y S D A M.
  - exists lc. cbn [body_src flat_map length]. rewrite Nat.add_0_r. splits; [apply reach_refl|auto|]. intros [|? ?] d E; discriminate E.
  - cbn [forallb] in D. apply andb_true_iff in D as [De D]. change (body_src (e :: es)) with (elem_src e ++ body_src es) in *. rewrite <- app_assoc in *.
    assert (A' : agree (body_src es ++ Y) (body_src es ++ X)) by now apply agree_app.
    assert (M' : within name (body_src es ++ Y) = false) by (apply within_app_r in M; exact M).
    assert (ST : exists l1, reach (at_ c line off false false lc) (at_ c line (off + length (elem_src e)) false false l1) /\
      (forall d, e = Ch d -> d <> 78 -> l1 = d) /\ skipn (off + length (elem_src e)) line = body_src es ++ X).
    { destruct e as [d|d]; cbn [elem_src app length] in *.
      - cbn [dequoted] in De. unfold c_bsl in De. destruct (code_char c line off lc d _ (body_src es ++ Y) S) as (l1 & R & L); auto; try lia.
        + rewrite starts_begins. cbn [within] in M. apply orb_false_iff in M. tauto.
        + exists l1. replace (off + 1)%nat with (Datatypes.S off) by lia. splits; auto; [intros x E; injection E as ->; auto|eapply skipn_next; eauto].
      - exists d. replace (off + 2)%nat with (Datatypes.S (Datatypes.S off)) by lia. splits; [eapply esc_char; eauto|discriminate|].
        eapply skipn_next, skipn_next; eauto. }
    destruct ST as (l1 & R1 & L1 & S1). destruct (IH c line _ l1 X Y S1 D A M') as (l2 & R2 & L2 & L3).
    exists l2. rewrite app_length. splits.
    + eapply reach_trans; [exact R1|]. now replace (off + (length (elem_src e) + length (body_src es)))%nat with (off + length (elem_src e) + length (body_src es))%nat by lia.
    + discriminate.
    + intros es0 d E N. destruct es0 as [|x es0]; cbn [app] in E; injection E as -> E; [|eauto]. rewrite L2 by auto. eauto.
Qed.

Lemma str_elems : forall es c line off lc X, skipn off line = body_src es ++ X -> forallb elem_ok es = true ->
  exists lc', reach (at_ c line off true false lc) (at_ c line (off + length (body_src es)) true false lc').
Proof.
  induction es as [|e es IH]; intros c line off lc X S D.
  - exists lc. cbn [body_src flat_map length]. rewrite Nat.add_0_r. apply reach_refl.
  - cbn [forallb] in D. apply andb_true_iff in D as [De D]. change (body_src (e :: es)) with (elem_src e ++ body_src es) in *. rewrite <- app_assoc in *.
    assert (ST : exists l1, reach (at_ c line off true false lc) (at_ c line (off + length (elem_src e)) true false l1) /\ skipn (off + length (elem_src e)) line = body_src es ++ X).
    { destruct e as [d|d]; cbn [elem_src app length] in *.
      - exists d. replace (off + 1)%nat with (Datatypes.S off) by lia. split; [|eapply skipn_next; eauto]. apply reach_step.
        unfold step, at_, next_char. cbn [c_in in_off in_line in_escape in_quotes]. rewrite S. cbv iota.
        cbn [elem_ok] in De. replace (d =? c_bsl) with false by lia. replace (d =? c_quote) with false by (unfold c_quote; lia).
        cbn [orb andb negb]. rewrite andb_false_r. reflexivity.
      - exists d. replace (off + 2)%nat with (Datatypes.S (Datatypes.S off)) by lia. split; [eapply esc_char; eauto|].
        eapply skipn_next, skipn_next; eauto. }
    destruct ST as (l1 & R1 & S1). destruct (IH c line _ l1 X S1 D) as (l2 & R2).
    exists l2. rewrite app_length. eapply reach_trans; [exact R1|]. now replace (off + (length (elem_src e) + length (body_src es)))%nat with (off + length (elem_src e) + length (body_src es))%nat by lia.
Qed.

(** ** A line of tokens *)

Lemma tok_elems : forall t, (forall l, t <> TStr l) -> tok_src t = body_src (elems t).
Proof. intros [l|l| |k|k|c] H; try reflexivity; [congruence|]. cbn [tok_src elems body_src flat_map elem_src app]. now rewrite flat_map_app. Qed.

Lemma elems_ok : forall t, lexed t = true -> unquoted t = true -> forallb dequoted (elems t) = true.
Proof.
  intros [l|l| |k|k|c] H U; cbn [elems]; try reflexivity.
  - cbn [forallb]. rewrite forallb_app. cbn [forallb dequoted]. change (negb (39 =? 34) && negb (39 =? c_bsl)) with true. cbn [andb]. rewrite andb_true_r.
    cbn [lexed unquoted] in *. apply andb_true_iff in H as [H _]. rewrite forallb_forall in *. intros e He. specialize (H e He). specialize (U e He).
    destruct e; cbn [dequoted chr_ok] in *; auto. rewrite U. cbn [andb]. destruct (c =? c_bsl); [rewrite andb_false_r in H; discriminate H|reflexivity].
  - destruct k; reflexivity.
  - destruct k; reflexivity.
  - cbn [lexed] in H. apply negb_true_iff in H. unfold syntax in H. not_chars H. cbn [forallb dequoted]. unfold c_bsl. replace (c =? 34) with false by lia. replace (c =? 92) with false by lia. reflexivity.
Qed.

Lemma code_cons : forall t l, code_text (t :: l) = quiet_src t ++ code_text l.
Proof. reflexivity. Qed.
Lemma code_app : forall a b, code_text (a ++ b) = code_text a ++ code_text b.
Proof. intros a b. unfold code_text. apply flat_map_app. Qed.

Lemma agree_toks : forall l Y X, agree Y X -> agree (code_text l ++ Y) (toks_src l ++ X).
Proof.
  induction l as [|t l IH]; intros Y X A; [exact A|]. rewrite code_cons, toks_cons, <- !app_assoc.
  destruct t as [s|s| |k|k|c]; try (apply (agree_app (tok_src _)); apply IH; exact A).
  cbn [quiet_src tok_src app]. apply agree_stop. cbn. intuition discriminate.
Qed.

Lemma toks_scan : forall l c line off lc X Y, skipn off line = toks_src l ++ X ->
  forallb lexed l = true -> forallb unquoted l = true -> agree Y X -> within name (code_text l ++ Y) = false ->
  exists lc', reach (at_ c line off false false lc) (at_ c line (off + length (toks_src l)) false false lc') /\ lastok (toks_src l) lc lc'.
Proof.
  induction l as [|t l IH]; intros c line off lc X Y S LX UN A M.
  - exists lc. cbn [toks_src flat_map length]. rewrite Nat.add_0_r. split; [apply reach_refl|]. split; [auto|]. intros [|? ?] ? E; discriminate E.
  - cbn [forallb] in LX, UN. apply andb_true_iff in LX as [L1 LX]. apply andb_true_iff in UN as [U1 UN].
    rewrite toks_cons in *. rewrite code_cons in M. rewrite <- app_assoc in S, M.
    assert (ST : exists l1, reach (at_ c line off false false lc) (at_ c line (off + length (tok_src t)) false false l1) /\ lastok (tok_src t) lc l1).
    { assert (NS : (forall s, t <> TStr s) -> exists l1, reach (at_ c line off false false lc) (at_ c line (off + length (tok_src t)) false false l1) /\ lastok (tok_src t) lc l1).
      { intro NS. rewrite (tok_elems t NS) in *. destruct (code_elems (elems t) c line off lc (toks_src l ++ X) (code_text l ++ Y)) as (l1 & R1 & Q1 & Q2); auto.
        - now apply elems_ok.
        - now apply agree_toks.
        - replace (body_src (elems t)) with (quiet_src t); auto. rewrite <- tok_elems by auto. destruct t; try reflexivity. exfalso. now apply (NS l0).
        - exists l1. split; auto. split; [destruct t as [s|s| |k|k|x]; try discriminate; now destruct (NS s)|].
          intros s0 d E N. destruct t as [s|s| |k|k|x]; cbn [elems] in *.
          + now destruct (NS s).
          + apply (Q2 (Ch 39 :: s) d); auto. change (Ch 39 :: s ++ [Ch 39]) with ((Ch 39 :: s) ++ [Ch 39]) in *. unfold body_src in E. rewrite flat_map_app in E.
            cbn [flat_map elem_src app] in E. change (39 :: flat_map elem_src s ++ [39]) with ((39 :: flat_map elem_src s) ++ [39]) in E.
            apply app_inj_tail in E as [_ <-]. reflexivity.
          + apply (Q2 [] d); auto. cbn in E. apply (app_inj_tail [] s0) in E as [_ <-]. reflexivity.
          + apply (Q2 [] d); auto. cbn [body_src flat_map elem_src app] in E. apply (app_inj_tail [] s0) in E as [_ <-]. reflexivity.
          + apply (Q2 [] d); auto. cbn [body_src flat_map elem_src app] in E. apply (app_inj_tail [] s0) in E as [_ <-]. reflexivity.
          + apply (Q2 [] d); auto. cbn [body_src flat_map elem_src app] in E. apply (app_inj_tail [] s0) in E as [_ <-]. reflexivity. }
      destruct t as [s|s| |k|k|x]; try (apply NS; discriminate). clear NS. exists 34.
      cbn [tok_src app] in S. rewrite <- app_assoc in S. cbn [app] in S. cbn [tok_src length]. rewrite app_length. cbn [length lexed] in *. apply andb_true_iff in L1 as [L1 _].
      pose proof (skipn_next _ _ _ _ S) as S1.
      assert (R0 : reach (at_ c line off false false lc) (at_ c line (Datatypes.S off) true false 34)).
      { apply reach_step. unfold step, at_, next_char. cbn [c_in in_off in_line in_escape in_quotes]. rewrite S. reflexivity. }
      destruct (str_elems s c line (Datatypes.S off) 34 _ S1 L1) as (l1 & R1).
      assert (S2 : skipn (Datatypes.S off + length (body_src s)) line = 34 :: toks_src l ++ X).
      { clear - S1. revert S1. generalize (Datatypes.S off). induction (body_src s) as [|x b IH]; intros o H; [cbn [length]; now rewrite Nat.add_0_r|].
        cbn [app length] in *. apply skipn_next in H. apply IH in H. now rewrite <- Nat.add_succ_comm. }
      split.
      - eapply reach_trans; [exact R0|]. eapply reach_trans; [exact R1|].
        replace (off + Datatypes.S (length (body_src s) + 1))%nat with (Datatypes.S (Datatypes.S off + length (body_src s))) by lia.
        apply reach_step. unfold step, at_, next_char. cbn [c_in in_off in_line in_escape in_quotes]. rewrite S2. reflexivity.
      - split; [discriminate|]. intros s0 d E _. change (34 :: body_src s ++ [34]) with ((34 :: body_src s) ++ [34]) in E. now apply app_inj_tail in E as [_ <-]. }
    destruct ST as (l1 & R1 & K1).
    assert (S2 : skipn (off + length (tok_src t)) line = toks_src l ++ X).
    { clear - S. revert off S. induction (tok_src t) as [|x b IH]; intros o H; [cbn [length]; now rewrite Nat.add_0_r|].
      cbn [app length] in *. apply skipn_next in H. apply IH in H. now rewrite <- Nat.add_succ_comm. }
    destruct (IH c line _ l1 X Y S2 LX UN A) as (l2 & R2 & K2).
    { now apply within_app_r in M. }
    exists l2. rewrite app_length. split; [|eapply lastok_app; eauto].
    eapply reach_trans; [exact R1|]. now replace (off + (length (tok_src t) + length (toks_src l)))%nat with (off + length (tok_src t) + length (toks_src l))%nat by lia.
Qed.

(** The rest of a line. *)
Lemma rest_scan : forall l c line off lc, skipn off line = toks_src l ++ [10] ->
  forallb lexed l = true -> forallb unquoted l = true -> within name (code_text l) = false ->
  reach (at_ c line off false false lc)
    (Conf (c_done c ++ [hd [] (c_lines c)]) (tl (c_lines c)) None 10 (c_file c) (c_line c) (c_first c) (c_mark c) (c_stmts c)).
Proof.
  intros l c line off lc S LX UN M.
  destruct (toks_scan l c line off lc [10] [10] S LX UN) as (lc' & R & _).
  { apply agree_stop. cbn. intuition discriminate. }
  { apply within_stop; auto; [cbn; intuition discriminate|discriminate]. }
  eapply reach_trans; [exact R|].
  assert (S2 : skipn (off + length (toks_src l)) line = [10]).
  { clear - S. revert off S. induction (toks_src l) as [|x b IH]; intros o H; [cbn [length]; now rewrite Nat.add_0_r|].
    cbn [app length] in *. apply skipn_next in H. apply IH in H. now rewrite <- Nat.add_succ_comm. }
  apply (reach_trans _ (at_ c line (Datatypes.S (off + length (toks_src l))) false false 10)); apply reach_step; unfold step, at_, next_char;
  cbn [c_in in_off in_line in_escape in_quotes].
  - rewrite S2. reflexivity.
  - rewrite (skipn_next _ _ _ _ S2). reflexivity.
Qed.

(** ** Whole lines without a statement *)

Definition between (dn ls : list (list Z)) (lc : Z) (f : list Z) (n : Z) (fst_ : option (list Z)) (mk : option nat) (st : list stmt) : conf :=
  Conf dn ls None lc f n fst_ mk st.

Lemma line_run : forall l dn R lc f n fi mk st p,
  forallb lexed l = true -> forallb unquoted l = true -> within name (code_text l) = false ->
  hd 0 (spaces p ++ toks_src l ++ [10]) <> 35 -> within marker_text (toks_src l) = false -> ident_char lc = false ->
  exists lc', ident_char lc' = false /\
    reach (between dn ((spaces p ++ toks_src l ++ [10]) :: R) lc f n fi mk st)
          (between (dn ++ [spaces p ++ toks_src l ++ [10]]) R lc' f (n + 1) fi mk st).
Proof.
  intros l dn R lc f n fi mk st p LX UN M H MK LC. set (line := spaces p ++ toks_src l ++ [10]) in *.
  assert (MK' : occurs marker_text line = false).
  { rewrite occurs_within. apply within_spaces; [discriminate|discriminate|]. apply within_stop; auto; [|discriminate].
    intro K. vm_compute in K. repeat (destruct K as [K|K]; [discriminate K|]). exact K. }
  destruct (occurs name line) eqn:O.
  - exists 10. split; [reflexivity|]. apply (reach_trans _ (at_ (between dn (line :: R) lc f (n + 1) fi mk st) line 0 false false lc)).
    + apply reach_step. unfold step, between, next_line, at_. cbn [c_in c_lines c_line c_done c_file c_first c_mark c_stmts c_last]. cbv zeta.
      rewrite not_directive by auto. rewrite MK', O. reflexivity.
    + assert (E : line = toks_src (map TC (spaces p) ++ l) ++ [10]).
      { unfold line. rewrite toks_app, <- app_assoc. f_equal. clear. induction p as [|p IH]; [reflexivity|].
        change (spaces (S p)) with (32 :: spaces p). cbn [map]. rewrite toks_cons, <- IH. reflexivity. }
      eapply reach_trans; [apply (rest_scan (map TC (spaces p) ++ l)); [exact E| | |]|].
      * rewrite forallb_app, LX, andb_true_r. clear. induction p as [|p IH]; [reflexivity|]. exact IH.
      * rewrite forallb_app, UN, andb_true_r. clear. induction p as [|p IH]; [reflexivity|]. exact IH.
      * rewrite code_app. replace (code_text (map TC (spaces p))) with (spaces p); [apply within_spaces; auto; discriminate|].
        clear. induction p as [|p IH]; [reflexivity|]. change (spaces (S p)) with (32 :: spaces p). cbn [map]. rewrite code_cons, <- IH. reflexivity.
      * apply reach_refl.
  - exists lc. split; auto. apply reach_step. unfold step, between, next_line. cbn [c_in c_lines c_line c_done c_file c_first c_mark c_stmts c_last]. cbv zeta.
    rewrite not_directive by auto. rewrite MK', O. reflexivity.
Qed.

(** Tokens up to the first newline. *)
Lemma toks_line : forall l, forallb lexed l = true -> ~ In 10 (toks_src l) \/ exists a b, l = a ++ TC 10 :: b /\ ~ In 10 (toks_src a).
Proof.
  induction l as [|t l IH]; intro LX; [left; auto|]. cbn [forallb] in LX. apply andb_true_iff in LX as [L1 LX].
  assert (T : t = TC 10 \/ ~ In 10 (tok_src t)).
  { destruct t as [s|s| |k|k|c]; cbn [tok_src lexed] in *.
    - right. apply andb_true_iff in L1 as [_ L1]. intros [K|K]; [discriminate K|]. apply in_app_or in K as [K|[K|[]]]; [|discriminate K].
      rewrite forallb_forall in L1. unfold body_src in K. apply in_flat_map in K as (e & He & K). specialize (L1 e He). destruct e; cbn in *; unfold c_bsl in *; lia.
    - right. apply andb_true_iff in L1 as [_ L1]. intros [K|K]; [discriminate K|]. apply in_app_or in K as [K|[K|[]]]; [|discriminate K].
      rewrite forallb_forall in L1. unfold body_src in K. apply in_flat_map in K as (e & He & K). specialize (L1 e He). destruct e; cbn in *; unfold c_bsl in *; lia.
    - right. cbn. lia.
    - right. destruct k; cbn; lia.
    - right. destruct k; cbn; lia.
    - destruct (Z.eq_dec c 10) as [->|N]; [now left|right]. cbn. lia. }
  destruct T as [->|T]; [right; exists [], l; split; auto|]. destruct (IH LX) as [N|(a & b & -> & N)].
  - left. rewrite toks_cons. intro K. apply in_app_or in K. tauto.
  - right. exists (t :: a), b. split; auto. rewrite toks_cons. intro K. apply in_app_or in K. tauto.
Qed.

(** Lines of tokens, from the start of a line to the end of one. *)
Lemma lines_run : forall m l dn R lc f n fi mk st, (length l <= m)%nat ->
  forallb lexed l = true -> forallb unquoted l = true -> within name (code_text l) = false ->
  within [10; 35] (10 :: toks_src l ++ [10]) = false -> within marker_text (toks_src l) = false -> ident_char lc = false ->
  exists lc', ident_char lc' = false /\
    reach (between dn (split_lines (toks_src l ++ [10]) ++ R) lc f n fi mk st)
          (between (dn ++ split_lines (toks_src l ++ [10])) R lc' f (n + nls (toks_src l ++ [10])) fi mk st).
Proof.
  induction m as [|m IH]; intros l dn R lc f n fi mk st Hm LX UN M H MK LC.
  all: assert (HD : forall a r, toks_src l ++ [10] = a ++ 10 :: r -> hd 0 (a ++ [10]) <> 35).
  1,3: (intros a r E; rewrite E in H; destruct a as [|x a]; cbn [app hd]; [discriminate|]; cbn [app within begins] in H; intros ->; discriminate H).
  all: destruct (toks_line l LX) as [N|(a & b & -> & N)].
  1,3: (rewrite split_line by auto; change (split_lines []) with (@nil (list Z)); destruct (line_run l dn R lc f n fi mk st 0) as (lc' & L & RR); auto;
    [apply (HD _ []); reflexivity|]; exists lc'; split; auto; rewrite nls_app, (proj2 (nls_none (toks_src l)) N); exact RR).
  1: rewrite app_length in Hm; cbn [length] in Hm; lia.
  rewrite toks_app, toks_cons in *. cbn [tok_src app] in *. rewrite <- app_assoc in *. cbn [app] in *.
  rewrite forallb_app in LX, UN. cbn [forallb] in LX, UN. apply andb_true_iff in LX as [LA LB]. apply andb_true_iff in UN as [UA UB].
  apply andb_true_iff in LB as [_ LB]. apply andb_true_iff in UB as [_ UB].
  rewrite code_app, code_cons in M. cbn [quiet_src tok_src app] in M.
  rewrite split_line by auto. cbn [app].
  destruct (line_run a dn (split_lines (toks_src b ++ [10]) ++ R) lc f n fi mk st 0) as (l1 & L1 & R1); auto.
  { eapply within_app_l; eauto. } { eapply HD; reflexivity. } { eapply within_app_l; eauto. }
  destruct (IH b (dn ++ [toks_src a ++ [10]]) R l1 f (n + 1) fi mk st) as (l2 & L2 & R2); auto.
  { rewrite app_length in Hm. cbn [length] in Hm. lia. }
  { apply within_app_r in M. cbn [within] in M. apply orb_false_iff in M. tauto. }
  { apply (within_app_r [10; 35] (10 :: toks_src a)). exact H. }
  { apply within_app_r in MK. cbn [within] in MK. apply orb_false_iff in MK. tauto. }
  exists l2. split; auto. eapply reach_trans; [exact R1|]. replace (n + nls (toks_src a ++ 10 :: toks_src b ++ [10])) with (n + 1 + nls (toks_src b ++ [10])).
  - replace (dn ++ (toks_src a ++ [10]) :: split_lines (toks_src b ++ [10])) with ((dn ++ [toks_src a ++ [10]]) ++ split_lines (toks_src b ++ [10])) by (rewrite <- app_assoc; reflexivity).
    exact R2.
  - rewrite (nls_app (toks_src a)), (proj2 (nls_none (toks_src a)) N). change (10 :: toks_src b ++ [10]) with ([10] ++ toks_src b ++ [10]). rewrite (nls_app [10]). change (nls [10]) with 1. lia.
Qed.
