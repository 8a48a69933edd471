(** C72: files that are logged to more than once. *)
From Verif Require Import Base BaseProofs Chars FrontFmt Args Printf ArgsProofs DecodeProofs Encoder Wire EncoderProofs Decoder FileSpec
  DecoderProofs Prop_Decoder Prop_Ordered Prop_Disk Ring RingProofs Runtime RtRing RtBuf RtInv RtSafe RtFile Prop_Runtime Append.

(** ** Specification *)

(** A log as one start of the background thread leaves it, and its lines; empty if nothing was written. *)
Definition log (conv : rconv -> list Z) (f : list Z) (ls : list oline) : Prop :=
  (f = [] /\ ls = []) \/ exists items, file_ok conv items /\ f = file_bytes items /\ ls = lines_of items.

(** The lines of logs one behind the other: each log but the first is announced. *)
Definition joined (logs : list (list Z * list oline)) : list oline :=
  tl (concat (map (fun '(f, ls) => match f with [] => [] | _ => LNewExecution :: ls end) logs)).

Fixpoint pick {A : Type} (n : nat) (names : list nat) (xs : list A) : list A :=
  match names, xs with
  | m :: names', x :: xs' => if (m =? n)%nat then x :: pick n names' xs' else pick n names' xs'
  | _, _ => []
  end.

(** The property: whatever an earlier program left in the file when it ended (the beginning of a log), a log
    appended to it is printed with all its lines. *)
Definition C72_full : Prop := forall conv d items k f ls, file_ok conv items -> log conv f ls -> f <> [] ->
  exists d1 d2 evs n, d_open_file d (firstn k (file_bytes items) ++ f) = Some (d1, true) /\
    decompressUnordered conv d1 = Some (d2, evs, n) /\ exists before, map line_of evs = before ++ ls.

(** ** Proof *)
Lemma log_decodes : forall conv f ls, log conv f ls -> decodes conv f ls.
Proof.
  intros conv f ls [H | (items & H & -> & ->)]; [now left|]. right.
  destruct (C18_unordered_complete conv new_decoder items H) as (d1 & d2 & evs & A & B & C & D). eauto 8.
Qed.

Lemma items_append : forall conv b, file_ok conv b -> forall a known, items_ok conv known a -> items_ok conv known (a ++ b).
Proof.
  intros conv b HB. induction a as [|it a IH]; intros known H.
  - cbn [app]. destruct b as [|[| | |j cp] b]; try contradiction HB. cbn [file_ok items_ok knows] in *. exact HB.
  - cbn [app items_ok] in *. destruct H as [H1 H2]. split; auto.
Qed.

Lemma lines_append : forall j cp b a c, FileSpec.file_lines c (a ++ ICheckpoint j cp :: b) = FileSpec.file_lines c a ++ LNewExecution :: FileSpec.file_lines cp b.
Proof.
  intros j cp b. induction a as [|[| | |] a IH]; intros c; cbn [app FileSpec.file_lines]; auto.
  - now rewrite IH, <- app_assoc.
  - now rewrite IH.
Qed.

Lemma file_bytes_app : forall a b, file_bytes (a ++ b) = file_bytes a ++ file_bytes b.
Proof. intros. unfold file_bytes. now rewrite map_app, concat_app. Qed.

Lemma file_nonempty : forall conv items, file_ok conv items -> file_bytes items <> [].
Proof.
  intros conv [|[| | |j cp] r] H; try contradiction H. unfold file_bytes. cbn [map concat item_bytes]. unfold checkpoint_bytes. discriminate.
Qed.

Lemma logs_join : forall conv fs lss, Forall2 (log conv) fs lss -> log conv (concat fs) (joined (combine fs lss)).
Proof.
  intros conv fs lss H. induction H as [|f ls fs lss HL H IH]; [now left|]. cbn [concat combine]. unfold joined in *. cbn [map concat].
  destruct HL as [(-> & ->) | (items & F & -> & ->)]; [exact IH|]. pose proof (file_nonempty _ _ F) as NE.
  destruct (file_bytes items) as [|z zs] eqn:EF; [congruence|]. rewrite <- EF. cbn [app tl].
  right. destruct IH as [(E1 & E2) | (its & G & E1 & E2)].
  - exists items. rewrite E1, app_nil_r. splits; auto.
    assert (X : concat (map (fun '(f, ls0) => match f with [] => [] | _ :: _ => LNewExecution :: ls0 end) (combine fs lss)) = []).
    { assert (K : Forall (fun f => f = []) fs).
      { clear - E1. induction fs as [|f fs IH]; constructor; cbn [concat] in E1; apply app_eq_nil in E1; [tauto|apply IH; tauto]. }
      clear - K. revert lss. induction K as [|f fs -> K IH]; intros [|ls lss]; try reflexivity. apply IH. }
    now rewrite X, app_nil_r.
  - exists (items ++ its). rewrite file_bytes_app, E1. splits; auto.
    + unfold file_ok in *. destruct items as [|[| | |j cp] r]; try contradiction F. cbn [app]. exact (items_append conv its G (ICheckpoint j cp :: r) [] F).
    + destruct items as [|[| | |j cp] r]; try contradiction F. destruct its as [|[| | |j' cp'] r']; try contradiction G. cbn [app lines_of] in *. rewrite lines_append.
      f_equal. rewrite <- E2.
      destruct (concat (map (fun '(f, ls0) => match f with [] => [] | _ :: _ => LNewExecution :: ls0 end) (combine fs lss))) as [|l0 rest] eqn:EC.
      * exfalso. assert (NG := file_nonempty _ _ G). rewrite <- E1 in NG. apply NG. clear - EC H.
        induction H as [|f ls fs lss _ H IH]; [reflexivity|]. cbn [combine map concat] in EC. apply app_eq_nil in EC. destruct EC as [E1 E2]. cbn [concat].
        rewrite (IH E2). destruct f; [reflexivity|discriminate E1].
      * cbn [tl]. f_equal. clear - EC. revert lss EC. induction fs as [|f fs IH]; intros [|ls lss] EC; try discriminate EC.
        cbn [combine map concat] in EC. destruct f as [|z f]; [now apply (IH lss)|]. cbn [app] in EC. congruence.
Qed.

Lemma logged_pick : forall names fs s n, length names = length fs -> logged s (combine names fs) n = s n ++ concat (pick n names fs).
Proof.
  induction names as [|m names IH]; intros [|f fs] s n HL; try discriminate HL; cbn [combine logged pick concat]; [now rewrite app_nil_r|].
  injection HL as HL. rewrite IH by exact HL. unfold append. rewrite Nat.eqb_sym. destruct (m =? n)%nat; [|reflexivity]. cbn [concat]. now rewrite app_assoc.
Qed.

Lemma pick_Forall2 : forall A B (R : A -> B -> Prop) n names xs ys, Forall2 R xs ys -> Forall2 R (pick n names xs) (pick n names ys).
Proof.
  intros A B R n. induction names as [|m names IH]; intros xs ys H; [constructor|]. destruct H as [|x y xs ys HR H]; cbn [pick]; [constructor|].
  destruct (m =? n)%nat; [constructor|]; auto.
Qed.

(** Decoding is a function. *)
Lemma decodes_one : forall conv f a b, decodes conv f a -> decodes conv f b -> a = b.
Proof.
  intros conv f a b HA HB. assert (E : d_open_file new_decoder [] = Some (fst (match d_open_file new_decoder [] with Some x => x | None => (new_decoder, false) end), false)) by (vm_compute; reflexivity).
  destruct HA as [(-> & ->) | (d1 & d2 & ev & A1 & A2 & A3 & _)], HB as [(F & ->) | (d1' & d2' & ev' & B1 & B2 & B3 & _)]; auto.
  - rewrite E in B1. discriminate B1.
  - subst f. rewrite E in A1. discriminate A1.
  - rewrite A1 in B1. apply some_inj in B1. injection B1 as <-. rewrite A2 in B2. apply some_inj in B2. injection B2 as _ <- _. congruence.
Qed.

(** Each file of an execution, by itself, is a log. *)
Lemma files_logs : forall conv text t, reach (normal conv text) t -> Forall (fun f => exists ls, log conv f ls) (t_olds t ++ [t_file t]).
Proof.
  intros conv text t R.
  assert (H : inv True t) by (eapply reach_inv; [|exact R]; intros l0 t0 (A & B & C & _); now apply proper_small_legal).
  assert (HS : inv_said conv text t) by (eapply reach_said; [|exact R]; intros l0 t0 (_ & _ & _ & D); exact D).
  pose proof H as H'. inv_split H'.
  assert (SA : forall tid np xs, In (GExtent tid np xs) (everything t) -> Forall (fun x => said conv (t_sites t) x (text x)) xs \/ tid < 0).
  { intros tid np xs HI. destruct (Z.lt_ge_cases tid 0) as [|HT]; [now right|left]. destruct xs as [|x0 xs0] eqn:EX; [constructor|]. rewrite <- EX in *.
    destruct (emitted_buf True t tid H HT) as (b & B1 & B2 & k & B3).
    { intro X. assert (Y := emitted_in tid np xs _ x0 HI ltac:(rewrite EX; now left)). rewrite X in Y. destruct Y. }
    apply Forall_forall. intros x Hx. assert (Y := emitted_in tid np xs _ x HI Hx). rewrite B3 in Y.
    unfold inv_said in HS. eapply Forall_forall in HS; eauto. cbv beta in HS. eapply Forall_forall in HS; [exact HS|].
    rewrite <- (firstn_skipn k (b_msgs b)). apply in_or_app. now left. }
  destruct HKn as (K1 & K2 & _). unfold everything, sect in *. destruct HSi as (HSi & _).
  assert (ONE : forall gs f, wires True (t_sites t) gs f -> gok (t_sites t) 0 gs -> (gs = [] \/ starts gs) ->
    (forall g, In g gs -> In g (concat (t_golds t) ++ t_gfile t ++ t_gflight t ++ t_glog t)) -> exists ls, log conv f ls).
  { intros gs f W G S X.
    assert (HA : forall tid np xs, In (GExtent tid np xs) gs -> Forall (fun x => said conv (t_sites t) x (text x)) xs).
    { intros tid np xs HI. destruct (SA tid np xs (X _ HI)) as [Y | Y]; auto.
      destruct W as (bss & W & _). clear - W HI Y. induction W as [|g b gs bss W _ IH]; [destruct HI|]. destruct HI as [-> | HI]; [|auto].
      cbn [wire] in W. lia. }
    destruct S as [-> | S]; [exists []; left; split; auto; destruct W as (bss & W & ->); now inversion W|].
    destruct (wires_items True conv text (t_sites t) gs f 0 (Checkpoint 0 0 []) I HSi W G ltac:(lia) HA) as (items & I1 & I2 & _ & I4).
    destruct (I4 S) as (junk & cp & r & EI). exists (lines_of items). right. exists items. subst items. splits; auto. }
  apply Forall_app. split.
  - unfold inv_olds in HOl. assert (XX : forall g, In g (concat (t_golds t)) -> In g (concat (t_golds t) ++ t_gfile t ++ t_gflight t ++ t_glog t)).
    { intros. apply in_or_app. now left. }
    set (all := concat (t_golds t) ++ t_gfile t ++ t_gflight t ++ t_glog t) in *. clearbody all. clear - HOl ONE XX.
    induction HOl as [|g f gs fs (A & B & C) _ IH]; constructor.
    + apply (ONE g f A B (or_intror C)). intros x Hx. apply XX. cbn [concat]. apply in_or_app. now left.
    + apply IH. intros x Hx. apply XX. cbn [concat]. apply in_or_app. now right.
  - constructor; [|constructor]. apply (ONE (t_gfile t) (t_file t)); auto.
    + rewrite gok_app in K1. tauto.
    + destruct K2 as (r & u & c & gs & E). destruct (t_gfile t) as [|g gf]; auto. right. cbn [app] in E. exists r, u, c, gf. congruence.
    + intros g Hg. apply in_or_app. right. apply in_or_app. now left.
Qed.

(** Any execution of the running system, which logged to files named [names] one after the other, some of them perhaps
    several times, some of them with whole logs of earlier programs in them: every file is printed with the lines it had
    before, and behind these the lines of each log. *)
Theorem C72_partial : forall conv text t names before lines lss,
  reach (normal conv text) t -> length names = length (t_olds t ++ [t_file t]) ->
  (forall n, log conv (before n) (lines n)) -> Forall2 (decodes conv) (t_olds t ++ [t_file t]) lss ->
  forall n, decodes conv (logged before (combine names (t_olds t ++ [t_file t])) n)
    (joined ((before n, lines n) :: combine (pick n names (t_olds t ++ [t_file t])) (pick n names lss))).
Proof.
  intros conv text t names before lines lss R HL HB HD n. pose proof (files_logs conv text t R) as FL.
  set (fs := t_olds t ++ [t_file t]) in *. clearbody fs. rewrite logged_pick by exact HL. apply log_decodes.
  assert (HLG : Forall2 (log conv) fs lss).
  { clear - FL HD. induction HD as [|f ls fs lss HR H IH]; constructor; inversion FL as [|? ? (ls' & X) Y]; subst; auto.
    rewrite (decodes_one conv f ls ls' HR (log_decodes _ _ _ X)). exact X. }
  apply (logs_join conv (before n :: pick n names fs) (lines n :: pick n names lss)). constructor; auto. now apply pick_Forall2.
Qed.
Print Assumptions C72_partial.

(** ** A program that ended while writing *)

(** Two programs with the same file; the last byte of the first one's log is missing. *)
Definition first_log : list item := [ICheckpoint 5 (demo_cp 10); IDict 1 [fsite 7]; pass 0 7 10].
Definition second_log : list item := [ICheckpoint 5 (demo_cp 20); IDict 1 [fsite 8]; pass 0 8 20].

Lemma first_ok : file_ok Prop_Message.show first_log.
Proof. apply passes_file_ok. unfold pass. demo_extents. Qed.
Lemma second_ok : file_ok Prop_Message.show second_log.
Proof. unfold file_ok, second_log, pass. demo_extents. Qed.

(** The message of the second program is printed with the statement and the clock of the first, and the message of the
    first with a byte of the second program's log for its argument. *)
Example C72_torn : print_all (firstn (length (file_bytes first_log) - 1) (file_bytes first_log) ++ file_bytes second_log) =
  Some (Some [LMsg (Shown (demo_cp 10) 0 10 3 (chars "a.cc") 7 2 (chars "n=" ++ [23])); shown_n 10 20 7]).
Proof. vm_compute. reflexivity. Qed.

Theorem C72_refuted : ~ C72_full.
Proof.
  intro H. destruct (H Prop_Message.show new_decoder first_log (length (file_bytes first_log) - 1)%nat (file_bytes second_log) (lines_of second_log)) as (d1 & d2 & evs & n & A & B & before & C).
  - exact first_ok.
  - right. exists second_log. splits; auto. exact second_ok.
  - vm_compute. discriminate.
  - pose proof C72_torn as R. unfold print_all in R. rewrite A in R. cbn [option_map fst] in R. rewrite B in R. cbn [option_map fst snd] in R.
    apply some_inj, some_inj in R. rewrite R in C. change (lines_of second_log) with [shown_n 20 20 8] in C.
    apply (f_equal (@rev _)) in C. rewrite rev_app_distr in C. cbn [rev app] in C. injection C as E _. vm_compute in E. discriminate E.
Qed.
Print Assumptions C72_refuted.

(** Both logs whole: file 4 had the first one in it; the second program logged to file 4, then to file 6, then to 4 again
    but wrote nothing more. *)
Example C72_instance :
  let before n := if (n =? 4)%nat then file_bytes first_log else [] in
  let ws := [(4%nat, file_bytes second_log); (6%nat, file_bytes second_log); (4%nat, [])] in
  log Prop_Message.show (before 4%nat) [shown_n 10 10 7] /\
  print_all (logged before ws 4%nat) = Some (Some [shown_n 10 10 7; LNewExecution; shown_n 20 20 8]) /\
  print_all (logged before ws 6%nat) = Some (Some [shown_n 20 20 8]) /\ logged before ws 5%nat = [] /\
  joined [(file_bytes first_log, [shown_n 10 10 7]); (file_bytes second_log, [shown_n 20 20 8]); ([], [])] = [shown_n 10 10 7; LNewExecution; shown_n 20 20 8].
Proof.
  cbv zeta. splits.
  - right. exists first_log. splits; [exact first_ok|reflexivity|vm_compute; reflexivity].
  - vm_compute. reflexivity.
  - vm_compute. reflexivity.
  - reflexivity.
  - vm_compute. reflexivity.
Qed.
