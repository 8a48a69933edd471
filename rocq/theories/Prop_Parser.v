(** C51: the arguments of a log statement are cut apart where C++ does. *)
From Coq Require Import String.
From Verif Require Import Base BaseProofs Chars Fmt FmtProofs Regex MicroCode MicroCodeProofs RingProofs DecodeProofs Preproc PreprocProofs PreprocLit Parser.
Ltac Zify.zify_post_hook ::= Z.div_mod_to_equations.

(** ** Specification: what stands between the parentheses of a call *)

Inductive bracket := Paren | Brack | Curly | Angle.
Definition opening (k : bracket) : Z := match k with Paren => 40 | Brack => 91 | Curly => 123 | Angle => 60 end.
Definition closing (k : bracket) : Z := match k with Paren => 41 | Brack => 93 | Curly => 125 | Angle => 62 end.

(** String and character literals; commas; brackets; any other character. *)
Inductive tok := TStr (l : list celem) | TChr (l : list celem) | TComma | TOpen (k : bracket) | TClose (k : bracket) | TC (c : Z).
Definition tok_src (t : tok) : list Z :=
  match t with
  | TStr l => 34 :: body_src l ++ [34]
  | TChr l => 39 :: body_src l ++ [39]
  | TComma => [44]
  | TOpen k => [opening k]
  | TClose k => [closing k]
  | TC c => [c]
  end.
Definition toks_src (l : list tok) : list Z := flat_map tok_src l.

(** Characters that stand for themselves: not quotes, brackets, commas or
    backslashes.  (An apostrophe can be a digit separator.) *)
Definition syntax : list Z := [34; 40; 41; 44; 91; 93; 123; 125; 92].
Definition chr_ok (e : celem) : bool :=
  match e with Ch c => negb (c =? 39) && negb (c =? c_bsl) && negb (c =? c_nl) | Esc _ => true end.
Definition simple (t : tok) : Prop :=
  match t with
  | TStr l => forallb elem_ok l = true
  | TChr l => forallb chr_ok l = true
  | TC c => mem_char c syntax = false
  | _ => False
  end.

(** Properly nested text; [commas]: whether commas may be outside of all
    brackets.  An argument of a call is [nested false]. *)
Inductive nested : bool -> list tok -> Prop :=
| ne_nil : forall b, nested b []
| ne_tok : forall b t l, simple t -> nested b l -> nested b (t :: l)
| ne_comma : forall l, nested true l -> nested true (TComma :: l)
| ne_group : forall b k body l, nested true body -> nested b l -> nested b (TOpen k :: body ++ TClose k :: l).

(** The text behind the name NANO_LOG. *)
Definition call_src (sp : list Z) (level fmt : list tok) (more : list (list tok)) (sp' : list Z) : list Z :=
  sp ++ 40 :: toks_src level ++ 44 :: toks_src fmt ++ flat_map (fun a => 44 :: toks_src a) more ++ 41 :: sp' ++ [59].

(** C51 as claimed: the first two arguments, which the preprocessor uses, and the
    end of the statement. *)
Definition C51_full : Prop := forall sp level fmt more sp' rest,
  forallb is_space sp = true -> forallb is_space sp' = true ->
  nested false level -> nested false fmt -> Forall (nested false) more ->
  exists others, parseLogStatement (call_src sp level fmt more sp' ++ rest) = Some (toks_src level :: toks_src fmt :: others, rest).

(** ** Proofs *)

(** No brackets or quotes in character literals, no template argument lists with
    brackets of their own. *)
Definition tame_chr (e : celem) : bool :=
  match e with Ch c => negb (mem_char c [34; 40; 41; 91; 93; 123; 125]) | Esc _ => true end.
Definition no_comma (e : celem) : bool := match e with Ch c => negb (c =? 44) | Esc _ => true end.
Definition tame (commas : bool) (t : tok) : bool :=
  match t with
  | TChr l => forallb tame_chr l && (commas || forallb no_comma l)
  | TOpen Angle | TClose Angle => commas
  | _ => true
  end.

Lemma not_mem : forall c l, mem_char c l = false <-> Forall (fun x => c <> x) l.
Proof.
  intros c l. induction l as [|x l IH]; cbn [mem_char existsb]; [split; auto|].
  rewrite orb_false_iff, Z.eqb_neq. change (existsb (Z.eqb c) l) with (mem_char c l). rewrite IH.
  split; [intros [A B]; constructor; auto|intro H; inversion H; auto].
Qed.

Ltac not_chars H := apply not_mem in H; repeat match goal with K : Forall _ (_ :: _) |- _ => inversion K; clear K; subst end.
Ltac scan_consts := unfold c_bsl, c_quote, c_lcurly, c_rcurly, c_lpar, c_rpar, c_lbrack, c_rbrack, c_comma in *.
Ltac scan_tests := repeat match goal with |- context [?x =? ?y] => first [replace (x =? y) with false by lia | replace (x =? y) with true by lia] end;
  cbn [orb andb negb]; cbv iota.

Lemma nl_false : forall (c : Z) , (if c =? c_nl then false else false) = false.
Proof. intro c. destruct (c =? c_nl); reflexivity. Qed.

(** Characters without a meaning for the scan. *)
Lemma scan_plain : forall c r p cu b a, mem_char c [92; 34; 40; 41; 44; 91; 93; 123; 125] = false ->
  arg_scan (c :: r) p cu b false false a = arg_scan r p cu b false false (a ++ [c]).
Proof.
  intros c r p cu b a H. not_chars H. cbn [arg_scan]. cbv zeta. rewrite nl_false. scan_consts.
  replace (c =? 92) with false by lia. replace (c =? 34) with false by lia. replace (c =? 123) with false by lia. replace (c =? 125) with false by lia.
  replace (c =? 40) with false by lia. replace (c =? 41) with false by lia. replace (c =? 91) with false by lia. replace (c =? 93) with false by lia.
  replace (c =? 44) with false by lia. reflexivity.
Qed.

(** A comma below the top. *)
Lemma scan_comma : forall r p cu b a, 0 <= p -> 0 <= cu -> 0 <= b -> 0 < p + cu + b ->
  arg_scan (44 :: r) p cu b false false a = arg_scan r p cu b false false (a ++ [44]).
Proof.
  intros r p cu b a Hp Hc Hb H. cbn [arg_scan]. cbv zeta.
  change (44 =? c_bsl) with false. change (44 =? c_quote) with false. change (44 =? c_lcurly) with false. change (44 =? c_rcurly) with false.
  change (44 =? c_lpar) with false. change (44 =? c_rpar) with false. change (44 =? c_lbrack) with false. change (44 =? c_rbrack) with false.
  change (44 =? c_comma) with true. change (44 =? c_nl) with false. cbn [orb andb]. cbv iota.
  destruct (cu =? 0) eqn:E1, (p =? 0) eqn:E2, (b =? 0) eqn:E3; try reflexivity. lia.
Qed.

Lemma scan_in : forall l r p cu b a, forallb elem_ok l = true ->
  arg_scan (body_src l ++ r) p cu b true false a = arg_scan r p cu b true false (a ++ body_src l).
Proof.
  induction l as [|e l IH]; intros r p cu b a H; cbn [body_src flat_map app]; [now rewrite app_nil_r|].
  cbn [forallb] in H. apply andb_true_iff in H as [He H]. fold (body_src l). destruct e as [c|c]; cbn [elem_src app elem_ok] in *.
  - cbn [arg_scan]. cbv zeta. replace (c =? c_bsl) with false by (unfold c_bsl in *; lia). replace (c =? c_quote) with false by (unfold c_quote; lia).
    cbn [orb]. cbv iota. rewrite nl_false, IH by auto. now rewrite <- app_assoc.
  - cbn [arg_scan]. cbv zeta. change (c_bsl =? c_bsl) with true. change (c_bsl =? c_nl) with false. cbn [orb negb]. cbv iota.
    rewrite orb_true_r, nl_false. cbv iota. rewrite IH by auto. now rewrite <- !app_assoc.
Qed.

Lemma scan_str : forall l r p cu b a, forallb elem_ok l = true ->
  arg_scan (tok_src (TStr l) ++ r) p cu b false false a = arg_scan r p cu b false false (a ++ tok_src (TStr l)).
Proof.
  intros l r p cu b a H. cbn [tok_src app]. rewrite <- app_assoc. cbn [arg_scan]. cbv zeta.
  change (34 =? c_bsl) with false. change (34 =? c_quote) with true. change (34 =? c_nl) with false. cbn [orb negb]. cbv iota.
  rewrite scan_in by auto. cbn [app arg_scan]. cbv zeta.
  change (34 =? c_bsl) with false. change (34 =? c_quote) with true. change (34 =? c_nl) with false. cbn [orb negb]. cbv iota.
  change (34 =? c_lcurly) with false. change (34 =? c_rcurly) with false.
  change (34 =? c_lpar) with false. change (34 =? c_rpar) with false. change (34 =? c_lbrack) with false. change (34 =? c_rbrack) with false.
  change (34 =? c_comma) with false. cbn [orb andb]. cbv iota. f_equal. rewrite <- !app_assoc. reflexivity.
Qed.

Definition deep (p cu b : Z) : Prop := 0 <= p /\ 0 <= cu /\ 0 <= b.

(** In a character literal: no brackets, and no commas at the top. *)
Lemma scan_chr_body : forall l r p cu b a, forallb chr_ok l = true -> forallb tame_chr l = true ->
  deep p cu b -> (0 < p + cu + b \/ forallb no_comma l = true) ->
  arg_scan (body_src l ++ r) p cu b false false a = arg_scan r p cu b false false (a ++ body_src l).
Proof.
  induction l as [|e l IH]; intros r p cu b a H1 H2 HD HC; cbn [body_src flat_map app]; [now rewrite app_nil_r|].
  cbn [forallb] in H1, H2, HC. apply andb_true_iff in H1 as [E1 H1]. apply andb_true_iff in H2 as [E2 H2]. fold (body_src l).
  assert (HC' : 0 < p + cu + b \/ forallb no_comma l = true) by (destruct HC as [HC|HC]; [now left|apply andb_true_iff in HC; tauto]).
  destruct e as [c|c]; cbn [elem_src app] in *.
  - assert (arg_scan (c :: body_src l ++ r) p cu b false false a = arg_scan (body_src l ++ r) p cu b false false (a ++ [c])) as ->.
    { destruct (Z.eqb_spec c 44) as [->|NE].
      - destruct HD as (D1 & D2 & D3). apply scan_comma; auto. destruct HC as [HC|HC]; auto. apply andb_true_iff in HC as [HC _]. discriminate HC.
      - apply scan_plain. cbn [tame_chr] in E2. apply negb_true_iff in E2. not_chars E2. cbn [chr_ok] in E1. unfold c_bsl in E1.
        apply not_mem. repeat constructor; lia. }
    rewrite IH by auto. now rewrite <- app_assoc.
  - cbn [arg_scan]. cbv zeta. change (c_bsl =? c_bsl) with true. change (c_bsl =? c_nl) with false. cbn [orb negb]. cbv iota.
    rewrite orb_true_r, nl_false. cbv iota. rewrite IH by auto. now rewrite <- !app_assoc.
Qed.

Lemma scan_open : forall k r p cu b a, k <> Angle ->
  arg_scan (opening k :: r) p cu b false false a
  = arg_scan r (p + match k with Paren => 1 | _ => 0 end) (cu + match k with Curly => 1 | _ => 0 end)
      (b + match k with Brack => 1 | _ => 0 end) false false (a ++ [opening k]).
Proof. intros [] r p cu b a H; try congruence; rewrite ?Z.add_0_r; reflexivity. Qed.

Lemma scan_close : forall k r p cu b a, k <> Angle -> 0 <= p ->
  arg_scan (closing k :: r) (p + match k with Paren => 1 | _ => 0 end) (cu + match k with Curly => 1 | _ => 0 end)
      (b + match k with Brack => 1 | _ => 0 end) false false a
  = arg_scan r p cu b false false (a ++ [closing k]).
Proof.
  intros [] r p cu b a H Hp; try congruence; rewrite ?Z.add_0_r; cbn [arg_scan closing]; cbv zeta.
  - change (41 =? c_bsl) with false. change (41 =? c_quote) with false. change (41 =? c_lcurly) with false. change (41 =? c_rcurly) with false.
    change (41 =? c_lpar) with false. change (41 =? c_rpar) with true. replace (0 <? p + 1) with true by lia. cbn [orb andb]. cbv iota.
    change (41 =? c_nl) with false. cbv iota. now rewrite Z.add_simpl_r.
  - change (93 =? c_bsl) with false. change (93 =? c_quote) with false. change (93 =? c_lcurly) with false. change (93 =? c_rcurly) with false.
    change (93 =? c_lpar) with false. change (93 =? c_rpar) with false. change (93 =? c_lbrack) with false. change (93 =? c_rbrack) with true. cbn [orb andb]. cbv iota.
    change (93 =? c_nl) with false. cbv iota. now rewrite Z.add_simpl_r.
  - change (125 =? c_bsl) with false. change (125 =? c_quote) with false. change (125 =? c_lcurly) with false. change (125 =? c_rcurly) with true. cbn [orb andb]. cbv iota.
    change (125 =? c_nl) with false. cbv iota. now rewrite Z.add_simpl_r.
Qed.

Lemma toks_app : forall a b, toks_src (a ++ b) = toks_src a ++ toks_src b.
Proof. intros a b. unfold toks_src. apply flat_map_app. Qed.

Lemma toks_cons : forall t l, toks_src (t :: l) = tok_src t ++ toks_src l.
Proof. reflexivity. Qed.

(** Text that does not end the argument: below the top, or without commas. *)
Lemma scan_nested : forall c l, nested c l -> forall r p cu b a,
  deep p cu b -> (0 < p + cu + b \/ c = false /\ forallb (tame false) l = true) -> forallb (tame true) l = true ->
  arg_scan (toks_src l ++ r) p cu b false false a = arg_scan r p cu b false false (a ++ toks_src l).
Proof.
  intros c l H. induction H as [c|c t l St H IH|l H IH|c k body l Hb IHb H IH]; intros r p cu b a HD HC HT.
  - cbn. now rewrite app_nil_r.
  - rewrite toks_cons, <- app_assoc. cbn [forallb] in HT, HC. apply andb_true_iff in HT as [T1 HT].
    assert (HC' : 0 < p + cu + b \/ c = false /\ forallb (tame false) l = true)
      by (destruct HC as [HC|[C1 C2]]; [now left|apply andb_true_iff in C2; tauto]).
    assert (arg_scan (tok_src t ++ toks_src l ++ r) p cu b false false a = arg_scan (toks_src l ++ r) p cu b false false (a ++ tok_src t)) as ->.
    { destruct t as [s|s| | | |x]; cbn [simple] in St; try contradiction.
      - now apply scan_str.
      - cbn [tok_src app]. rewrite scan_plain by reflexivity. rewrite <- app_assoc.
        cbn [tame] in T1, HC. apply andb_true_iff in T1 as [T1 _].
        rewrite scan_chr_body; auto.
        + cbn [app]. rewrite scan_plain by reflexivity. f_equal. rewrite <- !app_assoc. reflexivity.
        + destruct HC as [HC|[_ C2]]; [now left|]. right. apply andb_true_iff in C2 as [C2 _]. apply andb_true_iff in C2. tauto.
      - cbn [tok_src app]. apply scan_plain. apply not_mem in St. apply not_mem. unfold syntax in St.
        repeat match goal with K : Forall _ (_ :: _) |- _ => inversion K; clear K; subst end. repeat constructor; auto. }
    rewrite IH by auto. now rewrite <- app_assoc.
  - rewrite toks_cons, <- app_assoc. cbn [tok_src app]. destruct HD as (D1 & D2 & D3).
    destruct HC as [HC|[HC _]]; [|discriminate HC]. rewrite scan_comma by auto. rewrite IH; [now rewrite <- app_assoc|now split| |].
    + now left.
    + cbn [forallb] in HT. now apply andb_true_iff in HT.
  - rewrite toks_cons, toks_app, toks_cons, <- !app_assoc. cbn [tok_src app].
    cbn [forallb] in HT, HC. rewrite forallb_app in HT, HC. cbn [forallb] in HT, HC.
    apply andb_true_iff in HT as [T1 HT]. apply andb_true_iff in HT as [T2 HT]. apply andb_true_iff in HT as [_ HT].
    assert (HC' : 0 < p + cu + b \/ c = false /\ tame false (TOpen k) = true /\ forallb (tame false) l = true).
    { destruct HC as [HC|[C1 C2]]; [now left|]. rewrite !andb_true_iff in C2. tauto. }
    assert (HC2 : 0 < p + cu + b \/ c = false /\ forallb (tame false) l = true) by tauto.
    destruct (match k with Angle => true | _ => false end) eqn:EA.
    + destruct k; try discriminate EA. destruct HC' as [HC'|(_ & C2 & _)]; [|discriminate C2].
      cbn [opening closing]. rewrite scan_plain by reflexivity. rewrite IHb by auto. cbn [app]. rewrite scan_plain by reflexivity. rewrite IH by auto.
      f_equal. rewrite <- !app_assoc. reflexivity.
    + assert (NA : k <> Angle) by (destruct k; congruence). rewrite scan_open by auto.
      destruct HD as (D1 & D2 & D3).
      rewrite IHb; auto; [| destruct k; split; [|split| |split| |split| |split]; lia || auto | left; destruct k; try congruence; lia].
      cbn [app]. rewrite scan_close by auto. rewrite IH; auto; [|now split].
      f_equal. rewrite <- !app_assoc. reflexivity.
Qed.

Lemma scan_end : forall c r a, c = 44 \/ c = 41 -> arg_scan (c :: r) 0 0 0 false false a = Some (a, c :: r).
Proof. intros c r a [-> | ->]; reflexivity. Qed.

Lemma tame_weaken : forall l, forallb (tame false) l = true -> forallb (tame true) l = true.
Proof.
  intros l H. rewrite forallb_forall in *. intros t Ht. specialize (H t Ht). destruct t as [s|s| |k|k|x]; cbn [tame] in *; auto.
  - apply andb_true_iff in H as [-> _]. reflexivity.
  - destruct k; auto.
  - destruct k; auto.
Qed.

(** Text the loop over the arguments gets through, to the parenthesis in front of
    [r]. *)
Inductive loops (r : list Z) : list Z -> Prop :=
| lp_end : loops r (41 :: r)
| lp_comma : forall s, loops r s -> loops r (44 :: s)
| lp_skip : forall x s, (forall a, arg_scan (x ++ s) 0 0 0 false false a = arg_scan s 0 0 0 false false (a ++ x)) -> loops r s -> loops r (x ++ s).

Lemma loops_arg : forall r s, loops r s -> forall a,
  (exists a', arg_scan s 0 0 0 false false a = Some (a', 41 :: r)) \/
  (exists a' s', arg_scan s 0 0 0 false false a = Some (a', 44 :: s') /\ loops r s' /\ (length s' < length s)%nat).
Proof.
  intros r s H. induction H as [|s H IH|x s E H IH]; intro a.
  - left. exists a. apply scan_end. auto.
  - right. exists a, s. rewrite scan_end by auto. cbn [length]. auto.
  - rewrite E. destruct (IH (a ++ x)) as [(a' & R)|(a' & s' & R & L & N)]; [left; eauto|right]. exists a', s'. rewrite app_length. splits; auto. lia.
Qed.

Lemma loops_args : forall n r s args fuel c, loops r s -> (length s <= n)%nat -> (length s < fuel)%nat -> c <> 41 ->
  exists others, args_loop fuel (c :: s) args = Some (args ++ others, 41 :: r).
Proof.
  induction n as [|n IH]; intros r s args fuel c L Hn Hf Hc.
  - destruct (loops_arg r s L []) as [(a' & R)|(a' & s' & _ & _ & N)]; [|lia].
    destruct s as [|x s]; [cbn in R; discriminate R|cbn [length] in Hn; lia].
  - destruct fuel as [|fuel]; [lia|]. cbn [args_loop]. replace (c =? c_rpar) with false by (unfold c_rpar; lia). unfold parseArgument.
    destruct (loops_arg r s L []) as [(a' & R)|(a' & s' & R & L' & N)]; rewrite R.
    + destruct fuel as [|fuel]; [destruct s; cbn in R; [discriminate R|cbn [length] in Hf; lia]|].
      cbn [args_loop]. change (41 =? c_rpar) with true. cbv iota. eauto.
    + destruct (IH r s' (args ++ [a']) fuel 44 L') as (others & E); try lia. exists (a' :: others). rewrite E, <- app_assoc. reflexivity.
Qed.

Lemma chr_loops : forall l r s, forallb chr_ok l = true -> forallb tame_chr l = true -> loops r s -> loops r (body_src l ++ s).
Proof.
  induction l as [|e l IH]; intros r s H1 H2 L; [exact L|]. cbn [forallb] in H1, H2. apply andb_true_iff in H1 as [E1 H1]. apply andb_true_iff in H2 as [E2 H2].
  change (body_src (e :: l)) with (elem_src e ++ body_src l). rewrite <- app_assoc. destruct e as [c|c].
  - destruct (Z.eqb_spec c 44) as [->|NE]; [cbn [elem_src app]; apply lp_comma; auto|]. apply lp_skip; auto. intro a. cbn [elem_src app]. apply scan_plain.
    cbn [tame_chr] in E2. apply negb_true_iff in E2. not_chars E2. cbn [chr_ok] in E1. unfold c_bsl in E1. apply not_mem. repeat constructor; lia.
  - apply lp_skip; auto. intro a. cbn [elem_src app arg_scan]. cbv zeta. change (c_bsl =? c_bsl) with true. change (c_bsl =? c_nl) with false. cbn [orb negb]. cbv iota.
    rewrite orb_true_r, nl_false. cbv iota. now rewrite <- app_assoc.
Qed.

Lemma nested_loops : forall c l, nested c l -> forallb (tame true) l = true -> forall r s, loops r s -> loops r (toks_src l ++ s).
Proof.
  intros c l H. induction H as [c|c t l St H IH|l H IH|c k body l Hb IHb H IH]; intros HT r s L.
  - exact L.
  - rewrite toks_cons, <- app_assoc. cbn [forallb] in HT. apply andb_true_iff in HT as [T1 HT].
    destruct t as [x|x| | | |x]; cbn [simple] in St; try contradiction.
    + apply lp_skip; auto. intro a. now apply scan_str.
    + cbn [tok_src app]. change (39 :: (body_src x ++ [39]) ++ toks_src l ++ s) with ([39] ++ (body_src x ++ [39]) ++ toks_src l ++ s).
      apply lp_skip; [intro a; cbn [app]; now apply scan_plain|]. rewrite <- app_assoc. cbn [tame] in T1. apply andb_true_iff in T1 as [T1 _].
      apply chr_loops; auto. apply lp_skip; [intro a; cbn [app]; now apply scan_plain|]. auto.
    + apply lp_skip; auto. intro a. cbn [tok_src app]. apply scan_plain. apply not_mem in St. apply not_mem. unfold syntax in St.
      repeat match goal with K : Forall _ (_ :: _) |- _ => inversion K; clear K; subst end. repeat constructor; auto.
  - rewrite toks_cons. cbn [tok_src app]. apply lp_comma. apply IH; [|exact L]. cbn [forallb] in HT. now apply andb_true_iff in HT.
  - cbn [forallb] in HT. rewrite forallb_app in HT. cbn [forallb] in HT.
    apply andb_true_iff in HT as [T1 HT]. apply andb_true_iff in HT as [T2 HT]. apply andb_true_iff in HT as [T3 HT].
    destruct (match k with Angle => true | _ => false end) eqn:EA.
    + destruct k; try discriminate EA. rewrite toks_cons, toks_app, toks_cons, <- !app_assoc.
      apply lp_skip; [intro a; cbn [tok_src opening app]; now apply scan_plain|]. apply IHb; auto.
      apply lp_skip; [intro a; cbn [tok_src closing app]; now apply scan_plain|]. apply IH; auto.
    + assert (NA : k <> Angle) by (destruct k; congruence).
      replace (TOpen k :: body ++ TClose k :: l) with ((TOpen k :: body ++ [TClose k]) ++ l) by (cbn [app]; now rewrite <- app_assoc).
      rewrite toks_app, <- app_assoc. apply lp_skip; [|apply IH; auto]. intro a.
      rewrite toks_cons, toks_app, <- !app_assoc. change (toks_src [TClose k]) with [closing k]. cbn [tok_src app].
      rewrite scan_open by auto. rewrite (scan_nested true body); auto.
      * rewrite scan_close by (auto; lia). f_equal. rewrite <- !app_assoc. reflexivity.
      * destruct k; unfold deep; lia.
      * left. destruct k; try congruence; lia.
Qed.

Lemma skip_spaces : forall sp c r, forallb is_space sp = true -> is_space c = false -> skip_space (sp ++ c :: r) = c :: r.
Proof.
  induction sp as [|x sp IH]; intros c r H Hc; cbn [app skip_space]; [now rewrite Hc|].
  cbn [forallb] in H. apply andb_true_iff in H as [-> H]. auto.
Qed.

Lemma parse_outer : forall sp x r1 sp' rest args, forallb is_space sp = true -> forallb is_space sp' = true ->
  r1 = sp' ++ [59] ++ rest ->
  args_loop (length (sp ++ 40 :: x)) (40 :: x) [] = Some (args, 41 :: r1) ->
  parseLogStatement (sp ++ 40 :: x) = Some (args, rest).
Proof.
  intros sp x r1 sp' rest args H1 H2 E H. unfold parseLogStatement. rewrite skip_spaces by auto. change (40 =? c_lpar) with true. cbv iota.
  rewrite H. subst r1. cbn [app]. rewrite skip_spaces by auto. reflexivity.
Qed.

Lemma call_eq : forall sp level fmt more sp' rest,
  call_src sp level fmt more sp' ++ rest
  = sp ++ 40 :: toks_src level ++ 44 :: toks_src fmt ++ flat_map (fun a => 44 :: toks_src a) more ++ 41 :: sp' ++ [59] ++ rest.
Proof. intros. unfold call_src. repeat (rewrite <- app_assoc; cbn [app]). reflexivity. Qed.

Lemma arg_first : forall l c r, nested false l -> forallb (tame false) l = true -> c = 44 \/ c = 41 ->
  parseArgument (toks_src l ++ c :: r) = Some (toks_src l, c :: r).
Proof.
  intros l c r H T Hc. unfold parseArgument. rewrite (scan_nested false l H); [now apply scan_end|unfold deep; lia|auto|now apply tame_weaken].
Qed.

Lemma loop_step : forall fuel c l d r args, c <> 41 -> nested false l -> forallb (tame false) l = true -> d = 44 \/ d = 41 ->
  args_loop (S fuel) (c :: toks_src l ++ d :: r) args = args_loop fuel (d :: r) (args ++ [toks_src l]).
Proof.
  intros fuel c l d r args Hc H T Hd. cbn [args_loop]. replace (c =? c_rpar) with false by (unfold c_rpar; lia). now rewrite arg_first.
Qed.

Lemma args_cut : forall sp level fmt more r1,
  nested false level -> nested false fmt -> Forall (nested false) more ->
  forallb (tame false) level = true -> forallb (tame false) fmt = true -> Forall (fun a => forallb (tame true) a = true) more ->
  exists others, args_loop (length (sp ++ 40%Z :: toks_src level ++ 44%Z :: toks_src fmt ++ flat_map (fun a => 44%Z :: toks_src a) more ++ 41%Z :: r1))
      (40 :: toks_src level ++ 44 :: toks_src fmt ++ flat_map (fun a => 44 :: toks_src a) more ++ 41 :: r1) []
     = Some (toks_src level :: toks_src fmt :: others, 41 :: r1).
Proof.
  intros sp level fmt more r1 N1 N2 N3 T1 T2 T3.
  assert (FU : exists fuel, length (sp ++ 40%Z :: toks_src level ++ 44%Z :: toks_src fmt ++ flat_map (fun a => 44%Z :: toks_src a) more ++ 41%Z :: r1)
     = S (S (S fuel)) /\ (length (flat_map (fun a => 44%Z :: toks_src a) more ++ 41%Z :: r1) <= S fuel)%nat).
  { exists (length sp + length (toks_src level) + length (toks_src fmt) + length (flat_map (fun a => 44%Z :: toks_src a) more) + length r1)%nat.
    split; repeat (rewrite app_length; cbn [length]); lia. }
  destruct FU as (fuel & -> & FL).
  rewrite loop_step by (auto; lia). destruct more as [|a more].
  - exists []. cbn [flat_map app]. rewrite loop_step by (auto; lia). reflexivity.
  - cbn [flat_map] in *. cbn [app] in *. rewrite loop_step by (auto; lia). inversion N3 as [|? ? N4 N5]; inversion T3 as [|? ? T4 T5]; subst.
    assert (L : loops r1 ((toks_src a ++ flat_map (fun a => 44 :: toks_src a) more) ++ 41 :: r1)).
    { rewrite <- app_assoc. eapply nested_loops; eauto. clear - N5 T5. induction more as [|a more IH]; [cbn [flat_map app]; constructor|].
      inversion N5; inversion T5; subst. cbn [flat_map app]. rewrite <- app_assoc. apply lp_comma. eapply nested_loops; eauto. }
    destruct (loops_args _ r1 _ ([] ++ [toks_src level] ++ [toks_src fmt]) (S fuel) 44 L (Nat.le_refl _)) as (others & E); [cbn [length] in FL; lia|lia|].
    exists others. exact E.
Qed.

(** C51 unless a character literal is a quote or a bracket, or the severity or the
    format has a comma in a character literal or a template argument list. *)
Theorem C51_partial : forall sp level fmt more sp' rest,
  forallb is_space sp = true -> forallb is_space sp' = true ->
  nested false level -> nested false fmt -> Forall (nested false) more ->
  forallb (tame false) level = true -> forallb (tame false) fmt = true -> Forall (fun a => forallb (tame true) a = true) more ->
  exists others, parseLogStatement (call_src sp level fmt more sp' ++ rest) = Some (toks_src level :: toks_src fmt :: others, rest).
Proof.
  intros sp level fmt more sp' rest S1 S2 N1 N2 N3 T1 T2 T3. rewrite call_eq.
  destruct (args_cut sp level fmt more (sp' ++ [59] ++ rest)) as (others & HO); auto. exists others. eapply parse_outer; eauto.
Qed.
Print Assumptions C51_partial.

(** All arguments are cut apart if commas are nowhere a problem. *)
Theorem C51_exact_partial : forall sp level fmt more sp' rest,
  forallb is_space sp = true -> forallb is_space sp' = true ->
  Forall (fun a => nested false a /\ forallb (tame false) a = true) (level :: fmt :: more) ->
  parseLogStatement (call_src sp level fmt more sp' ++ rest) = Some (map toks_src (level :: fmt :: more), rest).
Proof.
  intros sp level fmt more sp' rest S1 S2 H. rewrite call_eq. set (r1 := sp' ++ [59] ++ rest).
  assert (G : forall l fuel c args, Forall (fun a => nested false a /\ forallb (tame false) a = true) l -> l <> [] -> c <> 41 -> (length l < fuel)%nat ->
    args_loop fuel (c :: tl (flat_map (fun a => 44 :: toks_src a) l) ++ 41 :: r1) args = Some (args ++ map toks_src l, 41 :: r1)).
  { induction l as [|a l IH]; intros fuel c args HF NE Hc Hl; [congruence|]. inversion HF as [|? ? [F1 F2] F3]; subst.
    destruct fuel as [|fuel]; [cbn [length] in Hl; lia|]. cbn [flat_map app tl]. rewrite <- app_assoc. destruct l as [|b l].
    - cbn [flat_map app map]. rewrite loop_step by (auto; lia). destruct fuel; [cbn [length] in Hl; lia|]. reflexivity.
    - specialize (IH fuel 44 (args ++ [toks_src a]) F3 ltac:(discriminate) ltac:(lia) ltac:(cbn [length] in *; lia)).
      cbn [flat_map app tl] in *. rewrite loop_step by (auto; lia). rewrite IH. cbn [map]. rewrite <- app_assoc. reflexivity. }
  assert (E : 40 :: toks_src level ++ 44 :: toks_src fmt ++ flat_map (fun a => 44 :: toks_src a) more ++ 41 :: r1
     = 40 :: tl (flat_map (fun a => 44 :: toks_src a) (level :: fmt :: more)) ++ 41 :: r1).
  { cbn [flat_map app tl]. rewrite <- !app_assoc. cbn [app]. rewrite <- !app_assoc. reflexivity. }
  eapply parse_outer; eauto. rewrite E. rewrite G; auto; try congruence; try lia.
  assert (LL : forall l, (length l <= length (flat_map (fun a => 44%Z :: toks_src a) l))%nat).
  { induction l as [|a l IH]; [auto|]. cbn [flat_map app length]. rewrite app_length. lia. }
  specialize (LL more). rewrite app_length. cbn [flat_map app tl length]. rewrite !app_length. cbn [length]. rewrite !app_length. lia.
Qed.
Print Assumptions C51_exact_partial.

(** ** Counterexamples and examples *)

Definition text (s : String.string) : list tok := map TC (chars s).

(** NANO_LOG(NOTICE, "%c", ')'): the parenthesis in the character literal ends the
    call; no semicolon follows and the file is rejected. *)
Theorem C51_refuted_char : ~ C51_full.
Proof.
  intro H. destruct (H [] (text "NOTICE") [TStr [Ch 37; Ch 99]] [[TChr [Ch 41]]] [] []) as (o & E); try reflexivity.
  - repeat constructor.
  - repeat constructor.
  - repeat constructor.
  - vm_compute in E. discriminate E.
Qed.
Print Assumptions C51_refuted_char.

(** NANO_LOG(level<int, int>(), "Hi"): the severity is cut at the comma. *)
Theorem C51_refuted_template : ~ C51_full.
Proof.
  intro H. destruct (H [] (text "level" ++ TOpen Angle :: (text "int" ++ TComma :: text " int") ++ TClose Angle :: [TOpen Paren; TClose Paren])
     [TC 32; TStr [Ch 72; Ch 105]] [] [] []) as (o & E); try reflexivity.
  - unfold text. cbn [chars map app]. repeat (apply ne_tok; [reflexivity|]). apply (ne_group false Angle (text "int" ++ TComma :: text " int")).
    + unfold text. cbn [chars map app]. repeat (apply ne_tok; [reflexivity|]). apply ne_comma. repeat (apply ne_tok; [reflexivity|]). constructor.
    + apply (ne_group false Paren []); constructor.
  - repeat constructor.
  - constructor.
  - vm_compute in E. discriminate E.
Qed.
Print Assumptions C51_refuted_template.

(** A call over two lines with a lambda, commas and quotes in literals. *)
Definition more51 : list (list tok) :=
  [text " f" ++ TOpen Paren :: (text "a" ++ TComma :: [TStr [Ch 41; Esc 34; Ch 44]]) ++ TClose Paren :: [];
   TC 10 :: TOpen Brack :: [] ++ TClose Brack :: TOpen Curly :: text "return x;" ++ TClose Curly :: text " + 1'000";
   [TChr [Ch 44]]; [TChr [Esc 34]]].
Definition level51 := text "LogLevels::NOTICE".
Definition fmt51 := [TC 32; TStr [Ch 40; Esc 110; Ch 37; Ch 115; Esc 34]; TC 10; TStr [Ch 44]].

Lemma text_nested : forall s b l, forallb (fun c => negb (mem_char c syntax)) (chars s) = true -> nested b l -> nested b (text s ++ l).
Proof.
  intros s b l H N. unfold text. induction (chars s) as [|c cs IH]; [exact N|]. cbn [forallb] in H. apply andb_true_iff in H as [H1 H2].
  cbn [map app]. constructor; auto. cbn [simple]. now apply negb_true_iff.
Qed.

Example C51_instance : nested false level51 /\ nested false fmt51 /\ Forall (nested false) more51 /\
  forallb (tame false) level51 = true /\ forallb (tame false) fmt51 = true /\ Forall (fun a => forallb (tame true) a = true) more51 /\
  option_map (fun x => (firstn 2 (fst x), length (fst x), snd x)) (parseLogStatement (call_src [32; 10] level51 fmt51 more51 [32] ++ chars " x++;"))
  = Some ([toks_src level51; toks_src fmt51], 7%nat, chars " x++;").
Proof.
  split; [rewrite <- (app_nil_r level51); apply text_nested; [reflexivity|constructor]|].
  split; [repeat constructor|]. split.
  - apply Forall_cons; [|apply Forall_cons; [|apply Forall_cons; [|apply Forall_cons; [|constructor]]]]; [| |repeat constructor|repeat constructor].
    + apply text_nested; [reflexivity|]. apply (ne_group false Paren); [|constructor]. apply text_nested; [reflexivity|].
      apply ne_comma. repeat constructor.
    + apply ne_tok; [reflexivity|]. apply (ne_group false Brack []); [constructor|].
      apply (ne_group false Curly); [rewrite <- (app_nil_r (text _)); apply text_nested; [reflexivity|constructor]|].
      rewrite <- (app_nil_r (text _)). apply text_nested; [reflexivity|constructor].
  - split; [reflexivity|]. split; [reflexivity|]. split; [repeat constructor|]. vm_compute. reflexivity.
Qed.
