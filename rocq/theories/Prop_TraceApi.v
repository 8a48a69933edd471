(** C84: what TimeTrace::getTrace shows of the calls of TimeTrace::record. *)
From Coq Require Import QArith Permutation Sorted.
From Verif Require Import Base BaseProofs RingProofs DecodeProofs Chars Fmt Preproc TimeFmt TimeTrace Prop_TimeTrace TraceText Prop_TraceText TraceApi.
Open Scope Z_scope.

(** ** Specification *)

(** The events a thread recorded since the last reset. *)
Definition recorded (tid : Z) (calls : list api) : list event :=
  fold_left (fun l a => match a with ARecord t e => if t =? tid then l ++ [e] else l | AReset => [] end) calls [].

(** The threads that recorded something. *)
Definition thread_of (a : api) : list Z := match a with ARecord t _ => [t] | AReset => [] end.
Definition threads_of (tids : list Z) (calls : list api) : Prop := NoDup tids /\ forall t, In t tids <-> In t (flat_map thread_of calls).

Definition api_ok (a : api) : Prop := match a with ARecord _ e => ev_format e <> 0 /\ 0 <= ev_time e < 2 ^ 64 - 1 | AReset => True end.

(** The trace consists of the recent events of all threads from the time on that all
    of them cover, each thread's in its order; the text is that of C80. *)
Definition C84_stmt : Prop := forall calls, Forall api_ok calls ->
  exists tids, threads_of tids calls /\
  let logs := map (fun t => recent (recorded t calls)) tids in
  let start := covered logs in
  exists out, printInternal (map snd (api_run calls)) = (start, Some out) /\
    shuffle (map (drop_old start) logs) out /\ (Forall in_order logs -> in_order out) /\
    forall cps msg, (0 < cps)%Q -> Forall (Forall (fun e => Z.abs (ev_time e - start) < 2 ^ 63)) logs ->
      exists lines, lines_say cps msg start (Forall in_order logs) start out lines /\
        trace_string cps msg (map snd (api_run calls)) = Some (match lines with [] => chars "No time trace events to print" | _ => joined lines end).

(** ** Proof *)

(** The buffers and the histories of the threads. *)
Definition hists := list (Z * list op).
Definition built (hs : hists) : traces := map (fun '(t, h) => (t, run h)) hs.

Fixpoint find_hist (tid : Z) (hs : hists) : option (list op) :=
  match hs with [] => None | (t, h) :: r => if t =? tid then Some h else find_hist tid r end.
Fixpoint add_hist (tid : Z) (e : event) (hs : hists) : hists :=
  match hs with
  | [] => [(tid, [Record_ e])]
  | (t, h) :: r => if t =? tid then (t, h ++ [Record_ e]) :: r else (t, h) :: add_hist tid e r
  end.
Definition reset_hists (hs : hists) : hists := map (fun '(t, h) => (t, h ++ [Reset])) hs.
Definition hist_step (hs : hists) (a : api) : hists := match a with ARecord t e => add_hist t e hs | AReset => reset_hists hs end.

Lemma run_snoc : forall h o, run (h ++ [o]) = run_op (run h) o.
Proof. intros h o. unfold run. now rewrite fold_left_app. Qed.
Lemma log_snoc : forall h o, log (h ++ [o]) = log_op (log h) o.
Proof. intros h o. unfold log. now rewrite fold_left_app. Qed.

Lemma find_built : forall tid hs, find_thread tid (built hs) = option_map run (find_hist tid hs).
Proof. intros tid hs. induction hs as [|[t h] hs IH]; cbn [built map find_thread find_hist]; [reflexivity|]. destruct (t =? tid); [reflexivity|exact IH]. Qed.

Lemma find_new : forall tid ts b, find_thread tid ts = None -> find_thread tid (ts ++ [(tid, b)]) = Some b.
Proof.
  intros tid ts b. induction ts as [|[t b'] ts IH]; intro H; cbn [app find_thread] in *; [now rewrite Z.eqb_refl|].
  destruct (t =? tid); [discriminate H|now apply IH].
Qed.

Lemma set_new : forall tid ts b b', find_thread tid ts = None -> set_thread tid b (ts ++ [(tid, b')]) = ts ++ [(tid, b)].
Proof.
  intros tid ts b b'. induction ts as [|[t x] ts IH]; intro H; cbn [app set_thread find_thread] in *; [now rewrite Z.eqb_refl|].
  destruct (t =? tid); [discriminate H|]. now rewrite IH.
Qed.

Lemma add_new : forall tid e hs, find_hist tid hs = None -> add_hist tid e hs = hs ++ [(tid, [Record_ e])].
Proof.
  intros tid e hs. induction hs as [|[t h] hs IH]; intro H; cbn [add_hist find_hist app] in *; [reflexivity|].
  destruct (t =? tid); [discriminate H|]. now rewrite IH.
Qed.

Lemma set_old : forall tid e hs h, find_hist tid hs = Some h -> set_thread tid (record (run h) e) (built hs) = built (add_hist tid e hs).
Proof.
  intros tid e hs. induction hs as [|[t x] hs IH]; intros h H; cbn [find_hist] in H; [discriminate H|]. cbn [built map set_thread add_hist].
  destruct (t =? tid) eqn:E.
  - injection H as ->. cbn [map]. rewrite run_snoc. reflexivity.
  - cbn [map]. f_equal. now apply IH.
Qed.

Lemma record_built : forall tid e hs, api_record tid e (built hs) = built (add_hist tid e hs).
Proof.
  intros tid e hs. unfold api_record, create. rewrite find_built. destruct (find_hist tid hs) as [h|] eqn:E; cbn [option_map].
  - rewrite find_built, E. cbn [option_map]. now apply set_old.
  - assert (N : find_thread tid (built hs) = None) by now rewrite find_built, E.
    rewrite (find_new _ _ _ N), (set_new _ _ _ _ N), (add_new _ _ _ E). unfold built. rewrite map_app. reflexivity.
Qed.

Lemma reset_built : forall hs, api_reset (built hs) = built (reset_hists hs).
Proof.
  intro hs. unfold api_reset, built, reset_hists. rewrite !map_map. apply map_ext. intros [t h]. cbn beta iota. now rewrite run_snoc.
Qed.

Definition run_hists (calls : list api) : hists := fold_left hist_step calls [].

Lemma run_built : forall calls, api_run calls = built (run_hists calls).
Proof.
  intro calls. unfold api_run, run_hists. change (@nil (Z * buffer)) with (built []). generalize (@nil (Z * list op)). induction calls as [|a calls IH]; intro hs; cbn [fold_left]; [reflexivity|].
  destruct a as [t e|]; cbn [api_step hist_step]; [rewrite record_built|rewrite reset_built]; apply IH.
Qed.

(** What the histories say. *)
Definition good_hists (hs : hists) (calls : list api) : Prop :=
  NoDup (map fst hs) /\ (forall t, In t (map fst hs) <-> In t (flat_map thread_of calls)) /\
  Forall (fun '(t, h) => Forall op_ok h /\ log h = recorded t calls) hs.

Lemma recorded_snoc : forall t calls a, recorded t (calls ++ [a]) =
  match a with ARecord t' e => if t' =? t then recorded t calls ++ [e] else recorded t calls | AReset => [] end.
Proof. intros t calls a. unfold recorded. now rewrite fold_left_app. Qed.

Lemma recorded_none : forall t calls, ~ In t (flat_map thread_of calls) -> recorded t calls = [].
Proof.
  intros t calls. induction calls as [|a calls IH] using rev_ind; intro H; [reflexivity|]. rewrite recorded_snoc. rewrite flat_map_app in H.
  destruct a as [t' e|]; [|reflexivity]. cbn [flat_map thread_of app] in H. rewrite in_app_iff in H. destruct (Z.eqb_spec t' t) as [->|N].
  - exfalso. apply H. right. now left.
  - apply IH. intro X. apply H. now left.
Qed.

Lemma add_fst : forall tid e hs, map fst (add_hist tid e hs) = match find_hist tid hs with Some _ => map fst hs | None => map fst hs ++ [tid] end.
Proof.
  intros tid e hs. induction hs as [|[t h] hs IH]; cbn [add_hist find_hist map fst app]; [reflexivity|]. destruct (t =? tid); cbn [map fst]; [reflexivity|].
  rewrite IH. destruct (find_hist tid hs); reflexivity.
Qed.

Lemma find_none : forall tid hs, find_hist tid hs = None <-> ~ In tid (map fst hs).
Proof.
  intros tid hs. induction hs as [|[t h] hs IH]; cbn [find_hist map fst]; [split; [intros _ []|reflexivity]|].
  destruct (Z.eqb_spec t tid) as [->|N].
  - split; [discriminate|]. intro H. exfalso. apply H. now left.
  - rewrite IH. split; [intros H [X|X]; auto|intros H X; apply H; now right].
Qed.

Lemma good_step : forall hs calls a, good_hists hs calls -> api_ok a -> good_hists (hist_step hs a) (calls ++ [a]).
Proof.
  intros hs calls a (ND & TH & FA) OK. unfold good_hists. rewrite flat_map_app. destruct a as [t e|]; cbn [hist_step flat_map thread_of app].
  - rewrite add_fst. split; [|split].
    + destruct (find_hist t hs) eqn:E; [exact ND|]. apply find_none in E. apply NoDup_Add with (a := t) (l := map fst hs); [|split; auto].
      rewrite <- (app_nil_r (map fst hs)) at 1. apply Add_app.
    + intro x. rewrite in_app_iff. cbn [In]. destruct (find_hist t hs) eqn:E.
      * rewrite TH. split; [auto|]. intros [H|[<-|[]]]; [exact H|]. apply TH. destruct (in_dec Z.eq_dec t (map fst hs)) as [I|I]; [exact I|].
        apply find_none in I. congruence.
      * rewrite in_app_iff. cbn [In]. rewrite TH. reflexivity.
    + assert (NEW : find_hist t hs = None -> recorded t calls = []).
      { intro E. apply find_none in E. apply recorded_none. now rewrite <- TH. }
      clear TH. induction hs as [|[x h] hs IH]; cbn [add_hist].
      * constructor; [|constructor]. split; [repeat constructor; apply OK|]. rewrite recorded_snoc, Z.eqb_refl, NEW by reflexivity. reflexivity.
      * inversion FA as [|? ? F12 F3]; subst. cbn beta iota in F12. destruct F12 as [F1 F2]. inversion ND as [|? ? N1 N2]; subst. cbn [find_hist] in NEW. destruct (x =? t) eqn:E.
        -- constructor.
           ++ split; [apply Forall_app; split; [exact F1|repeat constructor; apply OK]|]. rewrite log_snoc, recorded_snoc. cbn [log_op]. replace (t =? x) with true by lia. congruence.
           ++ rewrite Forall_forall in *. intros [y g] Hy. specialize (F3 _ Hy). cbn beta iota in F3. destruct F3 as [G1 G2]. split; [exact G1|]. rewrite recorded_snoc.
              destruct (Z.eqb_spec t y) as [->|NE]; [|exact G2]. exfalso. apply N1. apply Z.eqb_eq in E. subst x. exact (in_map fst _ _ Hy).
        -- constructor; [|apply IH; auto]. split; [exact F1|]. rewrite recorded_snoc. replace (t =? x) with false by lia. exact F2.
  - assert (M : map fst (reset_hists hs) = map fst hs). { unfold reset_hists. rewrite map_map. apply map_ext. intros [x h]. reflexivity. }
    rewrite M. split; [exact ND|]. split; [intro x; rewrite app_nil_r; apply TH|].
    rewrite Forall_forall in *. intros [x g] H. unfold reset_hists in H. apply in_map_iff in H. destruct H as ([y h] & E & H). injection E as <- <-.
    specialize (FA _ H). cbn beta iota in FA. destruct FA as [F1 F2]. split; [apply Forall_app; split; [exact F1|repeat constructor]|].
    rewrite log_snoc, recorded_snoc. reflexivity.
Qed.

Lemma good_run : forall calls, Forall api_ok calls -> good_hists (run_hists calls) calls.
Proof.
  intro calls. induction calls as [|a calls IH] using rev_ind; intro H.
  - split; [constructor|]. split; [intro t; split; intros []|constructor].
  - apply Forall_app in H. destruct H as [H1 H2]. inversion H2; subst. unfold run_hists. rewrite fold_left_app. cbn [fold_left]. apply good_step; auto.
Qed.

Theorem C84_api : C84_stmt.
Proof.
  intros calls OK. destruct (good_run calls OK) as (ND & TH & FA). exists (map fst (run_hists calls)). split; [split; [exact ND|exact TH]|].
  set (hs := map snd (run_hists calls)).
  assert (LG : map (fun t => recent (recorded t calls)) (map fst (run_hists calls)) = map (fun h => recent (log h)) hs).
  { unfold hs. rewrite !map_map. apply map_ext_in. intros [t h] H. rewrite Forall_forall in FA. specialize (FA _ H). cbn beta iota in FA. cbn [fst snd]. now rewrite (proj2 FA). }
  assert (RB : map snd (api_run calls) = map run hs).
  { rewrite run_built. unfold built, hs. rewrite !map_map. apply map_ext. intros [t h]. reflexivity. }
  assert (HO : Forall (Forall op_ok) hs).
  { unfold hs. rewrite Forall_forall in *. intros h H. apply in_map_iff in H. destruct H as ([t g] & <- & H). exact (proj1 (FA _ H)). }
  cbv zeta. rewrite LG, RB. destruct (C56_trace hs HO) as (out & PI & SH & IO). exists out. split; [exact PI|]. split; [exact SH|]. split; [exact IO|].
  intros cps msg C R. destruct (C80_text hs cps msg HO C R) as (out' & lines & PI' & _ & LS & TS & _).
  cbv zeta in PI'. rewrite PI in PI'. injection PI' as <-. exists lines. split; [exact LS|exact TS].
Qed.
Print Assumptions C84_api.

(** ** Examples *)

(** Thread 9 starts before the reset and has its buffer in front; thread 5 never
    records again and does not hide the others. *)
Example C84_threads : trace_string 1000000000 (fun e => dec_str (ev_format e))
  (map snd (api_run [ARecord 9 (ev 10 1); ARecord 5 (ev 11 2); AReset; ARecord 7 (ev 20 3); ARecord 9 (ev 22 4); ARecord 7 (ev 25 5)])) =
  Some (chars "     0.0 ns (+   0.0 ns): 4" ++ [10] ++ chars "     3.0 ns (+   3.0 ns): 5") /\
  map fst (api_run [ARecord 9 (ev 10 1); ARecord 5 (ev 11 2); AReset; ARecord 7 (ev 20 3)]) = [9; 5; 7].
Proof. split; vm_compute; reflexivity. Qed.
