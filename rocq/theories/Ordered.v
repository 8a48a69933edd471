(** Model of ordered decompression, Decoder::decompressTo, runtime/Log.cc:1799-1967.

    The heaps: after make_heap, pop_heap and push_heap the front of a stage is
    one of its elements with the smallest key; which one, if there are several,
    depends on the heap's history and is left to a parameter [pick], which gets
    the number of the step, the stage and the keys.  (The key of the front is
    changed before pop_heap is called; pop_heap does not look at it.)

    The functions on stages are polymorphic in the fragments and what is printed;
    the stages are buffer fragments, see [decompressTo]. *)
From Verif Require Import Base Printf Encoder LogHeader Decoder.

Definition chooser := nat -> nat -> list Z -> nat.

(** [pick] finds an element with the smallest key. *)
Definition heap_front (pick : chooser) : Prop := forall k i keys, keys <> [] ->
  exists x, nth_error keys (pick k i keys) = Some x /\ Forall (fun y => x <= y) keys.

(** The key of the front of each of the first [n] stages, none for an empty one. *)
Definition fronts {A} (key : A -> Z) (pick : chooser) (k n : nat) (stages : list (list A)) : list (option Z) :=
  map (fun p => nth_error (map key (snd p)) (pick k (fst p) (map key (snd p)))) (combine (seq 0 n) (firstn n stages)).

(** Step 3a, Log.cc:1913-1924: the first stage with the smallest front. *)
Fixpoint min_stage (i : nat) (best : option (nat * Z)) (fs : list (option Z)) : option nat :=
  match fs with
  | [] => option_map fst best
  | f :: r =>
    min_stage (S i)
      match f with
      | None => best
      | Some x =>
        match best with
        | None => Some (i, x)
        | Some (_, y) => if x <? y then Some (i, x) else best
        end
      end r
  end.

Fixpoint remove_nth {A} (j : nat) (l : list A) {struct l} : list A :=
  match l with
  | [] => []
  | x :: r => match j with O => r | S j' => x :: remove_nth j' r end
  end.

Fixpoint set_nth {A} (i : nat) (x : A) (l : list A) {struct l} : list A :=
  match l with
  | [] => []
  | y :: r => match i with O => x :: r | S i' => y :: set_nth i' x r end
  end.

(** Log.cc:1954-1957. *)
Definition shift_stages {A} (n : nat) (stages : list (list A)) : list (list A) :=
  firstn (n - 1) (tl stages) ++ [] :: skipn n stages.

(** Step 3, Log.cc:1911-1963: the step count, the stages, stagesBuffered, the
    fragments freed (the last one first), what is printed.  [next] decompresses a
    message of a fragment and tells whether it has more. *)
Fixpoint deplete {A E} (key : A -> Z) (next : A -> option (A * bool * list E)) (pick : chooser) (fuel k : nat)
    (mustDepleteAllStages : bool) (stages : list (list A)) (stagesBuffered : nat) (freed : list A)
    : option (nat * list (list A) * nat * list A * list E) :=
  match fuel with
  | O => None
  | S fuel' =>
    match min_stage 0 None (fronts key pick k stagesBuffered stages) with
    | None => Some (k, stages, 0%nat, freed, [])
    | Some i =>
      let stage := nth i stages [] in
      let j := pick k i (map key stage) in
      match nth_error stage j with
      | None => None
      | Some b =>
        match next b with
        | None => None
        | Some (b', more, evs) =>
          let stages1 := set_nth i (remove_nth j stage ++ (if more then [b'] else [])) stages in
          let freed1 := if more then freed else b' :: freed in
          match stages1 with
          | [] :: _ =>
            let stages2 := shift_stages stagesBuffered stages1 in
            if mustDepleteAllStages then
              match deplete key next pick fuel' (S k) mustDepleteAllStages stages2 (stagesBuffered - 1) freed1 with
              | None => None
              | Some (k', st, n, fr, evs') => Some (k', st, n, fr, evs ++ evs')
              end
            else Some (S k, stages2, (stagesBuffered - 1)%nat, freed1, evs)
          | _ =>
            match deplete key next pick fuel' (S k) mustDepleteAllStages stages1 stagesBuffered freed1 with
            | None => None
            | Some (k', st, n, fr, evs') => Some (k', st, n, fr, evs ++ evs')
            end
          end
        end
      end
    end
  end.

Definition stagesToBuffer := 3%nat.

Definition is_empty {A} (l : list A) : bool := match l with [] => true | _ => false end.

Definition push_stage {A} (n : nat) (b : A) (stages : list (list A)) : list (list A) :=
  set_nth n (nth n stages [] ++ [b]) stages.

(** One entry of the file, Log.cc:1849-1890: the decoder, the stages, newStage,
    mustDepleteAllStages, what is printed. *)
Definition load_entry (d : decoder) (stages : list (list bfrag)) (n : nat)
    : option (decoder * list (list bfrag) * bool * bool * list event) :=
  let '(entry, f) := peekEntryType (d_file d) in
  let with_ f' good cp free dict := Decoder (d_open d) f' (d_printed d) (d_bf d) good cp free dict in
  if entry =? ET_BUFFER_EXTENT then
    let '(b, free) := allocateBufferFragment (d_free d) in
    match readBufferExtent f b with
    | None => None
    | Some (f', b', ok, wrap) =>
      Some (with_ f' ok (d_cp d) free (d_dict d), if ok then push_stage n b' stages else stages, wrap, false, [])
    end
  else if entry =? ET_CHECKPOINT then
    if negb (is_empty (nth 0 stages []))
    then Some (with_ f (d_good d) (d_cp d) (d_free d) (d_dict d), stages, false, true, [])
    else
      match readDictionary (d_cp d) (d_dict d) f with
      | None => None
      | Some (f', cp, dict, ok) =>
        Some (with_ f' ok cp (d_free d) dict, stages, false, false, if ok then [EvNewExecution] else [])
      end
  else if entry =? ET_LOG_MSGS_OR_DIC then
    match readDictionaryFragment f (d_dict d) with
    | None => None
    | Some (f', dict, ok) => Some (with_ f' ok (d_cp d) (d_free d) dict, stages, false, false, [])
    end
  else
    Some (with_ (skip_padding (S (length (f_rest f))) f) (d_good d) (d_cp d) (d_free d) (d_dict d), stages, false, false, []).

(** Step 1, Log.cc:1846-1903: the decoder, the stages, stagesBuffered,
    mustDepleteAllStages, what is printed. *)
Fixpoint load_stages (fuel : nat) (d : decoder) (stages : list (list bfrag)) (n : nat)
    : option (decoder * list (list bfrag) * nat * bool * list event) :=
  match fuel with
  | O => None
  | S fuel' =>
    if f_eof (d_file d) || negb (d_good d) then Some (d, stages, n, false, [])
    else
      match load_entry d stages n with
      | None => None
      | Some (d', stages', newStage, must0, evs) =>
        let must := must0 || f_eof (d_file d') in
        let needFlush := must || negb (d_good d') in
        let n' := if newStage || (needFlush && negb (is_empty (nth n stages' []))) then S n else n in
        if must || (n' =? stagesToBuffer)%nat then Some (d', stages', n', must, evs)
        else
          match load_stages fuel' d' stages' n' with
          | None => None
          | Some (d2, st2, n2, m2, evs2) => Some (d2, st2, n2, m2, evs ++ evs2)
          end
      end
  end.

(** decompressNextLogStatement and hasNext, Log.cc:1933-1949. *)
Definition next_message (conv : rconv -> list Z) (cp : checkpoint) (dict : list dentry) (b : bfrag)
    : option (bfrag * bool * list event) :=
  match decompressNext conv dict b with
  | None => None
  | Some (b', o) => Some (b', bf_more b', match o with Some dm => [EvMsg cp dm] | None => [] end)
  end.

(** A message and its header take three bytes or more, so the bytes of a
    fragment bound the number of its messages. *)
Definition deplete_fuel (stages : list (list bfrag)) : nat :=
  2 + fold_right Nat.add 0%nat (map (fun b => S (S (Z.to_nat (bf_end b - bf_pos b)))) (concat stages)).

(** The outer loop, Log.cc:1844-1964. *)
Fixpoint ordered_loop (conv : rconv -> list Z) (pick : chooser) (fuel k : nat) (d : decoder) (stages : list (list bfrag)) (n : nat)
    : option (decoder * list event) :=
  match fuel with
  | O => None
  | S fuel' =>
    if f_eof (d_file d) || negb (d_good d) then Some (d, [])
    else
      match load_stages (S (S (length (f_rest (d_file d))))) d stages n with
      | None => None
      | Some (d1, st1, n1, must, evs1) =>
        match deplete bf_ts (next_message conv (d_cp d1) (d_dict d1)) pick (deplete_fuel st1) k must st1 n1 [] with
        | None => None
        | Some (k', st2, n2, freed, evs2) =>
          let d2 := Decoder (d_open d1) (d_file d1) (d_printed d1 + msgs_in evs2) (d_bf d1) (d_good d1) (d_cp d1)
                      (map bf_reset freed ++ d_free d1) (d_dict d1) in
          match ordered_loop conv pick fuel' k' d2 st2 n2 with
          | None => None
          | Some (d3, evs3) => Some (d3, evs1 ++ evs2 ++ evs3)
          end
        end
      end
  end.

(** decompressTo: the decoder, what is printed, the result. *)
Definition decompressTo (conv : rconv -> list Z) (pick : chooser) (d : decoder) : option (decoder * list event * Z) :=
  if negb (d_open d) then Some (d, [], -1)
  else
    match ordered_loop conv pick (2 * length (f_rest (d_file d)) + 4) 0 d [[]; []; []] 0 with
    | None => None
    | Some (d', evs) => Some (d', evs, d_printed d')
    end.
