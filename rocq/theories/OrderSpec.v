(** What ordered decompression should print: a specification, independent of the
    decoder. *)
From Verif Require Import Base Wire Decoder FileSpec.
From Coq Require Import Permutation Sorted.

Definition is_checkpoint (it : item) : bool := match it with ICheckpoint _ _ => true | _ => false end.

Definition one_execution (items : list item) : Prop := Forall (fun it => is_checkpoint it = false) items.

(** The messages of the passes over the threads, an extent with newPass ending a
    pass; the last one is not ended. *)
Fixpoint passes (items : list item) : list (list fmsg) :=
  match items with
  | [] => [[]]
  | IExtent _ newPass ms :: r =>
    if newPass then ms :: passes r
    else match passes r with p :: ps => (ms ++ p) :: ps | [] => [] end
  | _ :: r => passes r
  end.

(** Every message of a pass is no later than every message [k] or more passes later. *)
Definition displaced (k : nat) (ps : list (list fmsg)) : Prop := forall i j x y, (i + k <= j)%nat ->
  In x (nth i ps []) -> In y (nth j ps []) -> w_ts (fm_w x) <= w_ts (fm_w y).

(** The messages of an extent, which are one thread's, are in time order. *)
Definition extents_sorted (items : list item) : Prop := forall tid np ms, In (IExtent tid np ms) items ->
  StronglySorted (fun x y => w_ts (fm_w x) <= w_ts (fm_w y)) ms.

Definition extents_nonempty (items : list item) : Prop := forall tid np ms, In (IExtent tid np ms) items -> ms <> [].

(** Every pass has messages, perhaps not the one cut off by the end. *)
Definition passes_nonempty (ps : list (list fmsg)) : Prop := Forall (fun p => p <> []) (removelast ps).

Definition chronological (ls : list oline) : Prop := StronglySorted Z.le (map sh_ts (messages ls)).

(** The executions of a file, the first one under [cp]. *)
Fixpoint executions (cp : checkpoint) (items : list item) : list (checkpoint * list item) :=
  match items with
  | [] => [(cp, [])]
  | ICheckpoint _ cp' :: r => (cp, []) :: executions cp' r
  | it :: r => match executions cp r with (c, l) :: es => (c, it :: l) :: es | [] => [] end
  end.

(** The messages of an execution come before the next one starts. *)
Fixpoint by_execution (ok : list oline -> Prop) (es : list (checkpoint * list item)) (ls : list oline) : Prop :=
  match es with
  | [] => ls = []
  | (cp, l) :: es' =>
    match es' with
    | [] => Permutation ls (file_lines cp l) /\ ok ls
    | _ => exists a b, ls = a ++ LNewExecution :: b /\ Permutation a (file_lines cp l) /\ ok a /\ by_execution ok es' b
    end
  end.

(** An execution whose messages are in order from pass to pass, without empty
    extents. *)
Definition in_order (items : list item) : Prop := extents_nonempty items /\ displaced 1 (passes items).
