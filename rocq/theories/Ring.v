(** Model of the staging buffer, a ring shared by a logging thread (producer) and
    the compression thread (consumer): RuntimeLogger.h:315-481,
    RuntimeLogger.cc:751-844, and its life time, RuntimeLogger.h:386-389,498-518.

    Threads interleave at every access to a shared variable, under x86-TSO: a store
    goes to the store buffer of its thread and reaches memory later, in order.
    Each shared variable has one writer, so a thread reads its own variables
    from its own state and the other's from memory.  sfence and lfence do not
    add order on x86-TSO.  The compiler is assumed to keep the order of the
    accesses; the C++ standard does not oblige it to (the variables are not
    atomic).

    Positions are offsets into storage[].  [producerPos], [endOfRecordedSpace] and
    [shouldDeallocate] are written by the producer, [consumerPos] by the consumer. *)
From Verif Require Import Base.

Section Ring.

(** NanoLogConfig::STAGING_BUFFER_SIZE, Config.h:36; it can be configured. *)
Variable SIZE : Z.

(** Stores of the producer waiting in its store buffer. *)
Inductive pwrite := WData (a b : Z) | WEnd (v : Z) | WPos (v : Z) | WDead.

(** What the producer writes, as in memory. *)
Record shared := Shared { s_data : mem; s_end : Z; s_pos : Z; s_dead : bool }.

Definition commit (m : shared) (w : pwrite) : shared :=
  match w with
  | WData a b => Shared (store (s_data m) a [b]) (s_end m) (s_pos m) (s_dead m)
  | WEnd v => Shared (s_data m) v (s_pos m) (s_dead m)
  | WPos v => Shared (s_data m) (s_end m) v (s_dead m)
  | WDead => Shared (s_data m) (s_end m) (s_pos m) true
  end.

(** Where the producer is: between log statements; at the loop condition of
    reserveSpaceInternal (or the fast path of reserveProducerSpace) for the message
    [bs]; about to set endOfRecordedSpace, to wrap around, to write byte [k] of the
    message; exited.  [c] is cachedConsumerPos. *)
Inductive ppc :=
| PIdle | PTest (bs : list Z) | PEnd (bs : list Z) (c : Z) | PWrap (bs : list Z) (c : Z) | PWrite (bs : list Z) (k : nat) | PExit.

(** Its variables: producerPos, minFreeSpace, the store buffer. *)
Record producer := Producer { p_pc : ppc; p_pos : Z; p_min : Z; p_sb : list pwrite }.

(** Where the consumer is: not using this buffer; having read producerPos in peek;
    about to roll over in peek; with [n] bytes left of what peek returned; reading
    [k] bytes of these, [acc] so far; about to compare the positions in
    checkCanDelete; having deleted the buffer. *)
Inductive cpc :=
| CIdle | CPeek (cached : Z) | CRoll (cached : Z) | CHave (n : Z) | CRead (n : Z) (k : nat) (acc : list Z) | CCheck | CDeleted.

(** Its variables: consumerPos, the values stored to it waiting in the store
    buffer. *)
Record consumer := Consumer { c_pc : cpc; c_pos : Z; c_sb : list Z }.

(** The last two are not in the program: the messages finished by the producer
    and the bytes consumed. *)
Record ring := Ring {
  r_mem : shared; r_cons : Z; r_p : producer; r_c : consumer;
  r_sent : list (list Z); r_got : list Z
}.

(** StagingBuffer(), RuntimeLogger.h:396-420. *)
Definition new_ring : ring :=
  Ring (Shared (fun _ => 0) SIZE 0 false) 0 (Producer PIdle 0 SIZE []) (Consumer CIdle 0 []) [] [].

(** A step of the producer, with [cons] the consumerPos in memory: its new state and,
    if a message was finished, that message. *)
Definition producer_step (p : producer) (cons : Z) : option (producer * option (list Z)) :=
  match p_pc p with
  | PTest bs =>
    (* RuntimeLogger.h:337, RuntimeLogger.cc:763 *)
    if zlen bs <? p_min p then Some (Producer (PWrite bs 0) (p_pos p) (p_min p) (p_sb p), None)
    else if cons <=? p_pos p then
      (* RuntimeLogger.cc:768-772 *)
      let min := SIZE - p_pos p in
      if zlen bs <? min then Some (Producer (PWrite bs 0) (p_pos p) min (p_sb p), None)
      else Some (Producer (PEnd bs cons) (p_pos p) min (p_sb p), None)
    else
      (* RuntimeLogger.cc:786 *)
      Some (Producer (PTest bs) (p_pos p) (cons - p_pos p) (p_sb p), None)
  | PEnd bs c =>
    (* RuntimeLogger.cc:775-779 *)
    Some (Producer (if c =? 0 then PTest bs else PWrap bs c) (p_pos p) (p_min p) (p_sb p ++ [WEnd (p_pos p)]), None)
  | PWrap bs c =>
    (* RuntimeLogger.cc:781-783 *)
    Some (Producer (PTest bs) 0 c (p_sb p ++ [WPos 0]), None)
  | PWrite bs k =>
    match nth_error bs k with
    | Some b => Some (Producer (PWrite bs (S k)) (p_pos p) (p_min p) (p_sb p ++ [WData (p_pos p + Z.of_nat k) b]), None)
    | None =>
      (* finishReservation, RuntimeLogger.h:352-361 *)
      let pos := p_pos p + zlen bs in
      Some (Producer PIdle pos (p_min p - zlen bs) (p_sb p ++ [WPos pos]), Some bs)
    end
  | _ => None
  end.

(** A step of the consumer: its new state and the bytes consumed. *)
Definition consumer_step (c : consumer) (m : shared) : option (consumer * list Z) :=
  match c_pc c with
  | CPeek cached =>
    (* RuntimeLogger.cc:829-843 *)
    if cached <? c_pos c then
      let avail := to_u 64 (s_end m - c_pos c) in
      if 0 <? avail then Some (Consumer (CHave avail) (c_pos c) (c_sb c), [])
      else Some (Consumer (CRoll cached) (c_pos c) (c_sb c), [])
    else Some (Consumer (CHave (to_u 64 (cached - c_pos c))) (c_pos c) (c_sb c), [])
  | CRoll cached => Some (Consumer (CHave (to_u 64 cached)) 0 (c_sb c ++ [0]), [])
  | CRead n k acc =>
    if (length acc <? k)%nat
    then Some (Consumer (CRead n k (acc ++ [s_data m (c_pos c + zlen acc)])) (c_pos c) (c_sb c), [])
    else
      (* consume, RuntimeLogger.h:373-377 *)
      let pos := c_pos c + Z.of_nat k in
      Some (Consumer (CHave (n - Z.of_nat k)) pos (c_sb c ++ [pos]), acc)
  | CCheck => Some (Consumer (if c_pos c =? s_pos m then CDeleted else CIdle) (c_pos c) (c_sb c), [])
  | _ => None
  end.

(** What can happen: the thread logs a message, or exits
    (~StagingBufferDestroyer); the producer takes a step; its oldest store reaches
    memory; the same for the consumer; the consumer peeks, reads and consumes [k]
    bytes, or, having none, checks whether the buffer can be deleted. *)
Inductive label := LLog (bs : list Z) | LExit | LProducer | LCommitP | LConsumer | LCommitC | LPeek | LTake (k : nat) | LCheck.

Definition ring_step (l : label) (r : ring) : option ring :=
  let m := r_mem r in let p := r_p r in let c := r_c r in
  match l with
  | LLog bs =>
    match p_pc p with
    | PIdle => Some (Ring m (r_cons r) (Producer (PTest bs) (p_pos p) (p_min p) (p_sb p)) c (r_sent r) (r_got r))
    | _ => None
    end
  | LExit =>
    match p_pc p with
    | PIdle => Some (Ring m (r_cons r) (Producer PExit (p_pos p) (p_min p) (p_sb p ++ [WDead])) c (r_sent r) (r_got r))
    | _ => None
    end
  | LProducer =>
    match producer_step p (r_cons r) with
    | None => None
    | Some (p', o) => Some (Ring m (r_cons r) p' c (r_sent r ++ match o with Some bs => [bs] | None => [] end) (r_got r))
    end
  | LCommitP =>
    match p_sb p with
    | [] => None
    | w :: sb => Some (Ring (commit m w) (r_cons r) (Producer (p_pc p) (p_pos p) (p_min p) sb) c (r_sent r) (r_got r))
    end
  | LConsumer =>
    match consumer_step c m with
    | None => None
    | Some (c', bs) => Some (Ring m (r_cons r) p c' (r_sent r) (r_got r ++ bs))
    end
  | LCommitC =>
    match c_sb c with
    | [] => None
    | v :: sb => Some (Ring m v p (Consumer (c_pc c) (c_pos c) sb) (r_sent r) (r_got r))
    end
  | LPeek =>
    match c_pc c with
    | CIdle | CHave _ => Some (Ring m (r_cons r) p (Consumer (CPeek (s_pos m)) (c_pos c) (c_sb c)) (r_sent r) (r_got r))
    | _ => None
    end
  | LTake k =>
    match c_pc c with
    | CHave n =>
      if (0 <? Z.of_nat k) && (Z.of_nat k <=? n)
      then Some (Ring m (r_cons r) p (Consumer (CRead n k []) (c_pos c) (c_sb c)) (r_sent r) (r_got r))
      else None
    | _ => None
    end
  | LCheck =>
    match c_pc c with
    | CHave n =>
      if n =? 0
      then Some (Ring m (r_cons r) p (Consumer (if s_dead m then CCheck else CIdle) (c_pos c) (c_sb c)) (r_sent r) (r_got r))
      else None
    | _ => None
    end
  end.

Fixpoint ring_run (ls : list label) (r : ring) : option ring :=
  match ls with
  | [] => Some r
  | l :: ls' => match ring_step l r with Some r' => ring_run ls' r' | None => None end
  end.

End Ring.
