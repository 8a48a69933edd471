(** Specifications for the code the preprocessor generates: string literals and
    severities, as C++ and NanoLog.h define them. *)
From Coq Require Import String.
From Verif Require Import Base RingProofs Chars Fmt FmtProofs FrontFmt MicroCode Preproc PreprocProofs GenCode.

(** Simple escape sequences, C++17 [lex.ccon] table 8. *)
Definition escapes : list (Z * Z) :=
  [(ch "n", 10); (ch "t", 9); (ch "v", 11); (ch "b", 8); (ch "r", 13); (ch "f", 12); (ch "a", 7);
   (92, 92); (63, 63); (39, 39); (34, 34)].

(** The text [s] between the quotes stands for the characters [t]. *)
Inductive denotes : list Z -> list Z -> Prop :=
| den_nil : denotes [] []
| den_char : forall c s t, c <> 92 -> denotes s t -> denotes (c :: s) (c :: t)
| den_escape : forall e v s t, In (e, v) escapes -> denotes s t -> denotes (92 :: e :: s) (v :: t).

(** LogLevel, runtime/NanoLog.h:34-59: the names in the order of their values. *)
Definition level_names : list (list Z) :=
  map chars ["SILENT_LOG_LEVEL"; "ERROR"; "WARNING"; "NOTICE"; "DEBUG"]%string.
Definition severity (name : list Z) (v : Z) : Prop := 0 <= v /\ nth_error level_names (Z.to_nat v) = Some name.
Definition user_level (name : list Z) : Prop := In name (tl level_names).

Lemma escape_in : forall e v, escape e = Some v <-> In (e, v) escapes.
Proof.
  intros e v. split.
  - unfold escape, escapes.
    repeat match goal with |- context [if ?e =? ?c then _ else _] => destruct (Z.eqb_spec e c); [subst e; intro H; apply some_inj in H; subst v; cbn; tauto|] end.
    destruct (mem_char e [92; 34; 39; 63]) eqn:E; [|discriminate]. intro H. apply some_inj in H. subst v.
    cbn [mem_char existsb] in E. rewrite !orb_true_iff, !Z.eqb_eq in E. cbn [In].
    destruct E as [-> | [-> | [-> | [-> | E]]]]; try discriminate E; tauto.
  - intro H. unfold escapes in H. cbn [In] in H.
    repeat (destruct H as [H|H]; [apply pair_equal_spec in H; destruct H; subst; reflexivity|]). destruct H.
Qed.

Theorem literal_denotes : forall s t, literal s = Some t <-> denotes s t.
Proof.
  intros s t. split.
  - assert (G : forall n s t, (length s <= n)%nat -> literal s = Some t -> denotes s t).
    { induction n as [|n IH]; intros [|c r] u L H; cbn [length] in L; try lia; cbn [literal] in H.
      - apply some_inj in H. subst u. constructor.
      - apply some_inj in H. subst u. constructor.
      - unfold c_bsl in H. destruct (Z.eqb_spec c 92) as [->|NE].
        + destruct r as [|e r]; [discriminate H|]. destruct (escape e) as [v|] eqn:E; [|discriminate H].
          destruct (literal r) as [l|] eqn:El; [|discriminate H]. apply some_inj in H. subst u.
          constructor; [now apply escape_in|]. apply IH; auto. cbn [length] in L. lia.
        + destruct (literal r) as [l|] eqn:El; [|discriminate H]. apply some_inj in H. subst u. constructor; auto. apply IH; auto. lia. }
    intro H. now apply (G (length s)).
  - induction 1 as [|c s t NE _ IH|e v s t I _ IH]; [reflexivity| |]; cbn [literal]; unfold c_bsl.
    + replace (c =? 92) with false by lia. now rewrite IH.
    + rewrite Z.eqb_refl, IH. apply escape_in in I. now rewrite I.
Qed.
Print Assumptions literal_denotes.

Theorem level_number_right : forall l v, level_number l = Some v -> severity l v.
Proof.
  intros l v H. unfold level_number in H.
  assert (G : forall x w (r : option Z), severity x w -> (if zlist_eqb l x then Some w else r) = Some v -> severity l v \/ r = Some v).
  { intros x w r S G. destruct (zlist_eqb l x) eqn:E; [|auto]. apply zlist_eqb_eq in E. subst x. left. congruence. }
  repeat (apply G in H; [destruct H as [H|H]; [exact H|]|split; [lia|reflexivity]]).
  discriminate H.
Qed.
Print Assumptions level_number_right.

Lemma level_number_some : forall l, user_level l -> level_number l <> None.
Proof. intros l H. unfold user_level, level_names in H. cbn [tl map In] in H.
  repeat (destruct H as [H|H]; [subst l; vm_compute; discriminate|]). destruct H. Qed.
