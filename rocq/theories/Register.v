(** Assignment of ids to log statements, and the level check, under x86-TSO.

    Every access to memory shared between threads is a step; a store goes to the thread's store
    buffer and reaches memory later, in order; a load sees the thread's own buffered stores.
    Left out: the message itself (Ring.v, Args.v) -- only that its stores follow all of the
    above; the contents of StaticLogInfo: statement [s] has one. *)
From Verif Require Import Base.

(** NanoLogCpp17.h, RuntimeLogger.h: UNASSIGNED_LOGID. *)
Definition UNASSIGNED : Z := -1.

(** NanoLog.h:35-59. *)
Definition NOTICE : Z := 3.
Definition DEBUG : Z := 4.
Definition NUM_LOG_LEVELS : Z := 5.

(** setLogLevel, RuntimeLogger.cc:704-709; LogLevel has no negative enumerator, so its values are
    those of unsigned int. *)
Definition clamp (v : Z) : Z :=
  let l := to_u 32 v in
  if l <? 0 then 0 else if NUM_LOG_LEVELS <=? l then NUM_LOG_LEVELS - 1 else l.

(** Stores: of [logId] of statement [s]; the end of invocationSites.push_back; the release of
    registrationMutex; of currentLogLevel; the last one that publishes a message of statement [s] with id [v]. *)
Inductive wr := WId (s v : Z) | WPush (s : Z) | WUnlock | WLevel (v : Z) | WMsg (s v : Z).

(** Where a thread is: outside NANO_LOG; before the level check (NanoLogCpp17.h:1087), the test of
    logId (1006), the lock (RuntimeLogger.h:54), the test under the lock (57), the assignment (60), the
    push_back (61), the end of the block, the read of logId (NanoLogCpp17.h:1031). *)
Inductive pc := PIdle | PLevel (s : Z) | PTest (s : Z) | PLock (s : Z) | PIn (s : Z) | PAssign (s : Z) | PPush (s : Z) | PUnlock (s : Z) | PRead (s : Z).

Record thr := Thr { h_pc : pc; h_sb : list wr }.

Record reg := Reg {
  g_id : Z -> Z;             (* logId of each statement *)
  g_sites : list Z;          (* invocationSites *)
  g_lock : option nat;       (* registrationMutex *)
  g_level : Z;               (* currentLogLevel *)
  g_msgs : list (Z * Z);     (* published messages: statement and id *)
  g_copies : list (list Z);  (* what the compression thread has found in invocationSites *)
  g_thr : list thr
}.

Definition upd (f : Z -> Z) (a v : Z) (b : Z) : Z := if b =? a then v else f b.

Definition commit (w : wr) (g : reg) : reg :=
  match w with
  | WId s v => Reg (upd (g_id g) s v) (g_sites g) (g_lock g) (g_level g) (g_msgs g) (g_copies g) (g_thr g)
  | WPush s => Reg (g_id g) (g_sites g ++ [s]) (g_lock g) (g_level g) (g_msgs g) (g_copies g) (g_thr g)
  | WUnlock => Reg (g_id g) (g_sites g) None (g_level g) (g_msgs g) (g_copies g) (g_thr g)
  | WLevel v => Reg (g_id g) (g_sites g) (g_lock g) v (g_msgs g) (g_copies g) (g_thr g)
  | WMsg s v => Reg (g_id g) (g_sites g) (g_lock g) (g_level g) (g_msgs g ++ [(s, v)]) (g_copies g) (g_thr g)
  end.

Definition set_thr (i : nat) (h : thr) (g : reg) : reg :=
  Reg (g_id g) (g_sites g) (g_lock g) (g_level g) (g_msgs g) (g_copies g) (firstn i (g_thr g) ++ h :: skipn (S i) (g_thr g)).

Definition set_lock (l : option nat) (g : reg) : reg :=
  Reg (g_id g) (g_sites g) l (g_level g) (g_msgs g) (g_copies g) (g_thr g).

(** Loads. *)
Fixpoint seen_id (sb : list wr) (m : Z -> Z) (s : Z) : Z :=
  match sb with [] => m s | w :: r => seen_id r (match w with WId a v => upd m a v | _ => m end) s end.

Fixpoint seen_level (sb : list wr) (l : Z) : Z :=
  match sb with [] => l | w :: r => seen_level r (match w with WLevel v => v | _ => l end) end.

Fixpoint seen_size (sb : list wr) (n : Z) : Z :=
  match sb with [] => n | w :: r => seen_size r (match w with WPush _ => n + 1 | _ => n end) end.

(** The next access of a thread; [sev] gives the severity of each statement. *)
Definition thr_step (sev : Z -> Z) (i : nat) (h : thr) (g : reg) : option (thr * reg) :=
  let sb := h_sb h in
  match h_pc h with
  | PIdle => None
  | PLevel s => Some (Thr (if seen_level sb (g_level g) <? sev s then PIdle else PTest s) sb, g)
  | PTest s => Some (Thr (if seen_id sb (g_id g) s =? UNASSIGNED then PLock s else PRead s) sb, g)
  | PLock s =>
    match sb, g_lock g with
    | [], None => Some (Thr (PIn s) [], set_lock (Some i) g)
    | _, _ => None
    end
  | PIn s => Some (Thr (if seen_id sb (g_id g) s =? UNASSIGNED then PAssign s else PUnlock s) sb, g)
  | PAssign s => Some (Thr (PPush s) (sb ++ [WId s (to_s 32 (seen_size sb (zlen (g_sites g))))]), g)
  | PPush s => Some (Thr (PUnlock s) (sb ++ [WPush s]), g)
  | PUnlock s => Some (Thr (PRead s) (sb ++ [WUnlock]), g)
  | PRead s => Some (Thr PIdle (sb ++ [WMsg s (seen_id sb (g_id g) s)]), g)
  end.

(** A thread starts; calls NANO_LOG; calls setLogLevel; takes a step; its oldest store reaches memory; the
    compression thread looks at invocationSites with registrationMutex held (RuntimeLogger.cc:402-413). *)
Inductive glabel := GNew | GCall (i : nat) (s : Z) | GSet (i : nat) (v : Z) | GStep (i : nat) | GCommit (i : nat) | GCopy.

Definition g_step (sev : Z -> Z) (l : glabel) (g : reg) : option reg :=
  match l with
  | GNew => Some (Reg (g_id g) (g_sites g) (g_lock g) (g_level g) (g_msgs g) (g_copies g) (g_thr g ++ [Thr PIdle []]))
  | GCall i s =>
    match nth_error (g_thr g) i with
    | Some (Thr PIdle sb) => Some (set_thr i (Thr (PLevel s) sb) g)
    | _ => None
    end
  | GSet i v =>
    match nth_error (g_thr g) i with
    | Some (Thr PIdle sb) => Some (set_thr i (Thr PIdle (sb ++ [WLevel (clamp v)])) g)
    | _ => None
    end
  | GStep i =>
    match nth_error (g_thr g) i with
    | Some h => match thr_step sev i h g with Some (h', g') => Some (set_thr i h' g') | None => None end
    | None => None
    end
  | GCommit i =>
    match nth_error (g_thr g) i with
    | Some (Thr p (w :: sb)) => Some (set_thr i (Thr p sb) (commit w g))
    | _ => None
    end
  | GCopy =>
    match g_lock g with
    | None => Some (Reg (g_id g) (g_sites g) (g_lock g) (g_level g) (g_msgs g) (g_copies g ++ [g_sites g]) (g_thr g))
    | Some _ => None
    end
  end.

(** RuntimeLogger.cc:39-106. *)
Definition g_init : reg := Reg (fun _ => UNASSIGNED) [] None NOTICE [] [] [].

Fixpoint g_run (sev : Z -> Z) (ls : list glabel) (g : reg) : option reg :=
  match ls with [] => Some g | l :: r => match g_step sev l g with Some g' => g_run sev r g' | None => None end end.
