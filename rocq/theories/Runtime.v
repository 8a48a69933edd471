(** Model of the running system: RuntimeLogger (runtime/RuntimeLogger.h,
    RuntimeLogger.cc), with any number of logging threads, their staging buffers
    (Ring.v), the compression thread with its encoder (Encoder.v), asynchronous
    writes, sync() and setLogFile().

    Simplifications: a chunk is encoded in one step (nobody else touches what the
    encoder reads, C26_no_race, or writes); taking bufferMutex, registrationMutex
    and condMutex is not modelled, the steps they protect are atomic, except that
    a new buffer may be added at any time (in the code only while the scan does not
    hold bufferMutex: more behaviours here); the timed waits of the compression
    thread are no-ops; writes
    succeed completely; O_DIRECT is not set (it is not by default, Config.h). *)
From Verif Require Import Base LogHeader Args Encoder Wire Ring.

(** Config.h:54.  The size of the output buffers (Config.h:41) is part of the state, so
    that results are for every size. *)
Definition RELEASE := STAGING_BUFFER_SIZE / 2.

(** A staging buffer: its id, the ring, and, not in the code, the messages logged to it
    and how many of these have been compressed. *)
Record buf := Buf { b_id : Z; b_ring : ring; b_msgs : list smsg; b_taken : nat }.

(** RuntimeLogger.h:212-217. *)
Inductive status := SYNC_REQUESTED | PERFORMING_SECOND_PASS | WAITING_ON_AIO | SYNC_COMPLETED.

(** A thread in sync(), perhaps called by setLogFile; and, not in the code, the
    messages it knows to be logged: for each buffer id, the first so many. *)
Record waiter := Waiter { w_snap : list (Z * nat); w_switch : bool }.

(** setLogFile: not running, in sync(), about to stop the thread, joining it. *)
Inductive swpc := SwNone | SwSync | SwStop | SwJoin.

(** Places in compressionThreadMain: the loop condition (382), the dictionary
    (397-413), the condition of the scan (418), in peek (422), encoding chunks
    (438-474), in checkCanDelete (481), advancing (503-511), after the scan
    (518), the I/O part (543), starting a write (596), returned. *)
Inductive kpc := KTop | KDict | KScan | KPeek | KEnc | KCheck | KNext | KIdle | KIo | KWrite | KExit.

(** What a log file consists of, with the messages as they were logged. *)
Inductive gitem :=
| GCheckpoint (rdtsc unixTime : Z) (cps : list Z)
| GDict (total : Z) (ss : list site)
| GExtent (tid : Z) (newPass : bool) (xs : list smsg).

Record rt := Rt {
  t_sites : list site; (* invocationSites *)
  t_nextp : Z; (* nextInvocationIndexToBePersisted *)
  t_bufs : list buf; (* threadBuffers *)
  t_gone : list buf; (* not in the code: deleted buffers *)
  t_pend : list Z; (* ids taken by threads that have not yet added their buffer *)
  t_nextid : Z; (* nextBufferId *)
  t_kpc : kpc; (* where the compression thread is *)
  t_ki : Z; (* its i *)
  t_klast : Z; (* lastStagingBufferChecked *)
  t_kfull : bool; (* outputBufferFull *)
  t_kwrap : bool; (* wrapAround *)
  t_shadow : list site; (* shadowStaticInfo *)
  t_en : enc; (* encoder, over compressingBuffer *)
  t_other : Z; (* outputDoubleBuffer *)
  t_outst : bool; (* hasOutstandingOperation *)
  t_flight : list (Z * Z); (* writes the kernel has not completed: address, length *)
  t_file : list Z; (* what was written to the log file *)
  t_sync : status; (* syncStatus *)
  t_waiters : list waiter; (* threads waiting in sync() *)
  t_kexit : bool; (* compressionThreadShouldExit *)
  t_sw : swpc; (* where setLogFile is *)
  t_olds : list (list Z); (* not in the code: the files written before *)
  t_gfile : list gitem; (* not in the code: what the current file says *)
  t_gflight : list gitem; (* not in the code: what the writes in flight say *)
  t_glog : list gitem; (* not in the code: what the encoder's buffer says *)
  t_golds : list (list gitem); (* not in the code: what the earlier files say *)
  t_subm : list (list Z); (* not in the code: the buffers given to aio_write for this file *)
  t_gstart : list Z; (* not in the code: ids of the buffers when the scan started *)
  t_gseen : list Z; (* not in the code: ids of the buffers the scan has looked at *)
  t_skip : bool; (* not in the code: the scan deleted the first buffer it looked at *)
  t_returned : list (list (Z * nat)); (* not in the code: what the sync() calls that returned asked for *)
  t_osize : Z (* OUTPUT_BUFFER_SIZE *)
}.

Definition set_sites (v : list site) (t : rt) : rt := Rt v (t_nextp t) (t_bufs t) (t_gone t) (t_pend t) (t_nextid t) (t_kpc t) (t_ki t) (t_klast t) (t_kfull t) (t_kwrap t) (t_shadow t) (t_en t) (t_other t) (t_outst t) (t_flight t) (t_file t) (t_sync t) (t_waiters t) (t_kexit t) (t_sw t) (t_olds t) (t_gfile t) (t_gflight t) (t_glog t) (t_golds t) (t_subm t) (t_gstart t) (t_gseen t) (t_skip t) (t_returned t) (t_osize t).
Definition set_nextp (v : Z) (t : rt) : rt := Rt (t_sites t) v (t_bufs t) (t_gone t) (t_pend t) (t_nextid t) (t_kpc t) (t_ki t) (t_klast t) (t_kfull t) (t_kwrap t) (t_shadow t) (t_en t) (t_other t) (t_outst t) (t_flight t) (t_file t) (t_sync t) (t_waiters t) (t_kexit t) (t_sw t) (t_olds t) (t_gfile t) (t_gflight t) (t_glog t) (t_golds t) (t_subm t) (t_gstart t) (t_gseen t) (t_skip t) (t_returned t) (t_osize t).
Definition set_bufs (v : list buf) (t : rt) : rt := Rt (t_sites t) (t_nextp t) v (t_gone t) (t_pend t) (t_nextid t) (t_kpc t) (t_ki t) (t_klast t) (t_kfull t) (t_kwrap t) (t_shadow t) (t_en t) (t_other t) (t_outst t) (t_flight t) (t_file t) (t_sync t) (t_waiters t) (t_kexit t) (t_sw t) (t_olds t) (t_gfile t) (t_gflight t) (t_glog t) (t_golds t) (t_subm t) (t_gstart t) (t_gseen t) (t_skip t) (t_returned t) (t_osize t).
Definition set_gone (v : list buf) (t : rt) : rt := Rt (t_sites t) (t_nextp t) (t_bufs t) v (t_pend t) (t_nextid t) (t_kpc t) (t_ki t) (t_klast t) (t_kfull t) (t_kwrap t) (t_shadow t) (t_en t) (t_other t) (t_outst t) (t_flight t) (t_file t) (t_sync t) (t_waiters t) (t_kexit t) (t_sw t) (t_olds t) (t_gfile t) (t_gflight t) (t_glog t) (t_golds t) (t_subm t) (t_gstart t) (t_gseen t) (t_skip t) (t_returned t) (t_osize t).
Definition set_pend (v : list Z) (t : rt) : rt := Rt (t_sites t) (t_nextp t) (t_bufs t) (t_gone t) v (t_nextid t) (t_kpc t) (t_ki t) (t_klast t) (t_kfull t) (t_kwrap t) (t_shadow t) (t_en t) (t_other t) (t_outst t) (t_flight t) (t_file t) (t_sync t) (t_waiters t) (t_kexit t) (t_sw t) (t_olds t) (t_gfile t) (t_gflight t) (t_glog t) (t_golds t) (t_subm t) (t_gstart t) (t_gseen t) (t_skip t) (t_returned t) (t_osize t).
Definition set_nextid (v : Z) (t : rt) : rt := Rt (t_sites t) (t_nextp t) (t_bufs t) (t_gone t) (t_pend t) v (t_kpc t) (t_ki t) (t_klast t) (t_kfull t) (t_kwrap t) (t_shadow t) (t_en t) (t_other t) (t_outst t) (t_flight t) (t_file t) (t_sync t) (t_waiters t) (t_kexit t) (t_sw t) (t_olds t) (t_gfile t) (t_gflight t) (t_glog t) (t_golds t) (t_subm t) (t_gstart t) (t_gseen t) (t_skip t) (t_returned t) (t_osize t).
Definition set_kpc (v : kpc) (t : rt) : rt := Rt (t_sites t) (t_nextp t) (t_bufs t) (t_gone t) (t_pend t) (t_nextid t) v (t_ki t) (t_klast t) (t_kfull t) (t_kwrap t) (t_shadow t) (t_en t) (t_other t) (t_outst t) (t_flight t) (t_file t) (t_sync t) (t_waiters t) (t_kexit t) (t_sw t) (t_olds t) (t_gfile t) (t_gflight t) (t_glog t) (t_golds t) (t_subm t) (t_gstart t) (t_gseen t) (t_skip t) (t_returned t) (t_osize t).
Definition set_ki (v : Z) (t : rt) : rt := Rt (t_sites t) (t_nextp t) (t_bufs t) (t_gone t) (t_pend t) (t_nextid t) (t_kpc t) v (t_klast t) (t_kfull t) (t_kwrap t) (t_shadow t) (t_en t) (t_other t) (t_outst t) (t_flight t) (t_file t) (t_sync t) (t_waiters t) (t_kexit t) (t_sw t) (t_olds t) (t_gfile t) (t_gflight t) (t_glog t) (t_golds t) (t_subm t) (t_gstart t) (t_gseen t) (t_skip t) (t_returned t) (t_osize t).
Definition set_klast (v : Z) (t : rt) : rt := Rt (t_sites t) (t_nextp t) (t_bufs t) (t_gone t) (t_pend t) (t_nextid t) (t_kpc t) (t_ki t) v (t_kfull t) (t_kwrap t) (t_shadow t) (t_en t) (t_other t) (t_outst t) (t_flight t) (t_file t) (t_sync t) (t_waiters t) (t_kexit t) (t_sw t) (t_olds t) (t_gfile t) (t_gflight t) (t_glog t) (t_golds t) (t_subm t) (t_gstart t) (t_gseen t) (t_skip t) (t_returned t) (t_osize t).
Definition set_kfull (v : bool) (t : rt) : rt := Rt (t_sites t) (t_nextp t) (t_bufs t) (t_gone t) (t_pend t) (t_nextid t) (t_kpc t) (t_ki t) (t_klast t) v (t_kwrap t) (t_shadow t) (t_en t) (t_other t) (t_outst t) (t_flight t) (t_file t) (t_sync t) (t_waiters t) (t_kexit t) (t_sw t) (t_olds t) (t_gfile t) (t_gflight t) (t_glog t) (t_golds t) (t_subm t) (t_gstart t) (t_gseen t) (t_skip t) (t_returned t) (t_osize t).
Definition set_kwrap (v : bool) (t : rt) : rt := Rt (t_sites t) (t_nextp t) (t_bufs t) (t_gone t) (t_pend t) (t_nextid t) (t_kpc t) (t_ki t) (t_klast t) (t_kfull t) v (t_shadow t) (t_en t) (t_other t) (t_outst t) (t_flight t) (t_file t) (t_sync t) (t_waiters t) (t_kexit t) (t_sw t) (t_olds t) (t_gfile t) (t_gflight t) (t_glog t) (t_golds t) (t_subm t) (t_gstart t) (t_gseen t) (t_skip t) (t_returned t) (t_osize t).
Definition set_shadow (v : list site) (t : rt) : rt := Rt (t_sites t) (t_nextp t) (t_bufs t) (t_gone t) (t_pend t) (t_nextid t) (t_kpc t) (t_ki t) (t_klast t) (t_kfull t) (t_kwrap t) v (t_en t) (t_other t) (t_outst t) (t_flight t) (t_file t) (t_sync t) (t_waiters t) (t_kexit t) (t_sw t) (t_olds t) (t_gfile t) (t_gflight t) (t_glog t) (t_golds t) (t_subm t) (t_gstart t) (t_gseen t) (t_skip t) (t_returned t) (t_osize t).
Definition set_en (v : enc) (t : rt) : rt := Rt (t_sites t) (t_nextp t) (t_bufs t) (t_gone t) (t_pend t) (t_nextid t) (t_kpc t) (t_ki t) (t_klast t) (t_kfull t) (t_kwrap t) (t_shadow t) v (t_other t) (t_outst t) (t_flight t) (t_file t) (t_sync t) (t_waiters t) (t_kexit t) (t_sw t) (t_olds t) (t_gfile t) (t_gflight t) (t_glog t) (t_golds t) (t_subm t) (t_gstart t) (t_gseen t) (t_skip t) (t_returned t) (t_osize t).
Definition set_other (v : Z) (t : rt) : rt := Rt (t_sites t) (t_nextp t) (t_bufs t) (t_gone t) (t_pend t) (t_nextid t) (t_kpc t) (t_ki t) (t_klast t) (t_kfull t) (t_kwrap t) (t_shadow t) (t_en t) v (t_outst t) (t_flight t) (t_file t) (t_sync t) (t_waiters t) (t_kexit t) (t_sw t) (t_olds t) (t_gfile t) (t_gflight t) (t_glog t) (t_golds t) (t_subm t) (t_gstart t) (t_gseen t) (t_skip t) (t_returned t) (t_osize t).
Definition set_outst (v : bool) (t : rt) : rt := Rt (t_sites t) (t_nextp t) (t_bufs t) (t_gone t) (t_pend t) (t_nextid t) (t_kpc t) (t_ki t) (t_klast t) (t_kfull t) (t_kwrap t) (t_shadow t) (t_en t) (t_other t) v (t_flight t) (t_file t) (t_sync t) (t_waiters t) (t_kexit t) (t_sw t) (t_olds t) (t_gfile t) (t_gflight t) (t_glog t) (t_golds t) (t_subm t) (t_gstart t) (t_gseen t) (t_skip t) (t_returned t) (t_osize t).
Definition set_flight (v : list (Z * Z)) (t : rt) : rt := Rt (t_sites t) (t_nextp t) (t_bufs t) (t_gone t) (t_pend t) (t_nextid t) (t_kpc t) (t_ki t) (t_klast t) (t_kfull t) (t_kwrap t) (t_shadow t) (t_en t) (t_other t) (t_outst t) v (t_file t) (t_sync t) (t_waiters t) (t_kexit t) (t_sw t) (t_olds t) (t_gfile t) (t_gflight t) (t_glog t) (t_golds t) (t_subm t) (t_gstart t) (t_gseen t) (t_skip t) (t_returned t) (t_osize t).
Definition set_file (v : list Z) (t : rt) : rt := Rt (t_sites t) (t_nextp t) (t_bufs t) (t_gone t) (t_pend t) (t_nextid t) (t_kpc t) (t_ki t) (t_klast t) (t_kfull t) (t_kwrap t) (t_shadow t) (t_en t) (t_other t) (t_outst t) (t_flight t) v (t_sync t) (t_waiters t) (t_kexit t) (t_sw t) (t_olds t) (t_gfile t) (t_gflight t) (t_glog t) (t_golds t) (t_subm t) (t_gstart t) (t_gseen t) (t_skip t) (t_returned t) (t_osize t).
Definition set_sync (v : status) (t : rt) : rt := Rt (t_sites t) (t_nextp t) (t_bufs t) (t_gone t) (t_pend t) (t_nextid t) (t_kpc t) (t_ki t) (t_klast t) (t_kfull t) (t_kwrap t) (t_shadow t) (t_en t) (t_other t) (t_outst t) (t_flight t) (t_file t) v (t_waiters t) (t_kexit t) (t_sw t) (t_olds t) (t_gfile t) (t_gflight t) (t_glog t) (t_golds t) (t_subm t) (t_gstart t) (t_gseen t) (t_skip t) (t_returned t) (t_osize t).
Definition set_waiters (v : list waiter) (t : rt) : rt := Rt (t_sites t) (t_nextp t) (t_bufs t) (t_gone t) (t_pend t) (t_nextid t) (t_kpc t) (t_ki t) (t_klast t) (t_kfull t) (t_kwrap t) (t_shadow t) (t_en t) (t_other t) (t_outst t) (t_flight t) (t_file t) (t_sync t) v (t_kexit t) (t_sw t) (t_olds t) (t_gfile t) (t_gflight t) (t_glog t) (t_golds t) (t_subm t) (t_gstart t) (t_gseen t) (t_skip t) (t_returned t) (t_osize t).
Definition set_kexit (v : bool) (t : rt) : rt := Rt (t_sites t) (t_nextp t) (t_bufs t) (t_gone t) (t_pend t) (t_nextid t) (t_kpc t) (t_ki t) (t_klast t) (t_kfull t) (t_kwrap t) (t_shadow t) (t_en t) (t_other t) (t_outst t) (t_flight t) (t_file t) (t_sync t) (t_waiters t) v (t_sw t) (t_olds t) (t_gfile t) (t_gflight t) (t_glog t) (t_golds t) (t_subm t) (t_gstart t) (t_gseen t) (t_skip t) (t_returned t) (t_osize t).
Definition set_sw (v : swpc) (t : rt) : rt := Rt (t_sites t) (t_nextp t) (t_bufs t) (t_gone t) (t_pend t) (t_nextid t) (t_kpc t) (t_ki t) (t_klast t) (t_kfull t) (t_kwrap t) (t_shadow t) (t_en t) (t_other t) (t_outst t) (t_flight t) (t_file t) (t_sync t) (t_waiters t) (t_kexit t) v (t_olds t) (t_gfile t) (t_gflight t) (t_glog t) (t_golds t) (t_subm t) (t_gstart t) (t_gseen t) (t_skip t) (t_returned t) (t_osize t).
Definition set_olds (v : list (list Z)) (t : rt) : rt := Rt (t_sites t) (t_nextp t) (t_bufs t) (t_gone t) (t_pend t) (t_nextid t) (t_kpc t) (t_ki t) (t_klast t) (t_kfull t) (t_kwrap t) (t_shadow t) (t_en t) (t_other t) (t_outst t) (t_flight t) (t_file t) (t_sync t) (t_waiters t) (t_kexit t) (t_sw t) v (t_gfile t) (t_gflight t) (t_glog t) (t_golds t) (t_subm t) (t_gstart t) (t_gseen t) (t_skip t) (t_returned t) (t_osize t).
Definition set_gfile (v : list gitem) (t : rt) : rt := Rt (t_sites t) (t_nextp t) (t_bufs t) (t_gone t) (t_pend t) (t_nextid t) (t_kpc t) (t_ki t) (t_klast t) (t_kfull t) (t_kwrap t) (t_shadow t) (t_en t) (t_other t) (t_outst t) (t_flight t) (t_file t) (t_sync t) (t_waiters t) (t_kexit t) (t_sw t) (t_olds t) v (t_gflight t) (t_glog t) (t_golds t) (t_subm t) (t_gstart t) (t_gseen t) (t_skip t) (t_returned t) (t_osize t).
Definition set_gflight (v : list gitem) (t : rt) : rt := Rt (t_sites t) (t_nextp t) (t_bufs t) (t_gone t) (t_pend t) (t_nextid t) (t_kpc t) (t_ki t) (t_klast t) (t_kfull t) (t_kwrap t) (t_shadow t) (t_en t) (t_other t) (t_outst t) (t_flight t) (t_file t) (t_sync t) (t_waiters t) (t_kexit t) (t_sw t) (t_olds t) (t_gfile t) v (t_glog t) (t_golds t) (t_subm t) (t_gstart t) (t_gseen t) (t_skip t) (t_returned t) (t_osize t).
Definition set_glog (v : list gitem) (t : rt) : rt := Rt (t_sites t) (t_nextp t) (t_bufs t) (t_gone t) (t_pend t) (t_nextid t) (t_kpc t) (t_ki t) (t_klast t) (t_kfull t) (t_kwrap t) (t_shadow t) (t_en t) (t_other t) (t_outst t) (t_flight t) (t_file t) (t_sync t) (t_waiters t) (t_kexit t) (t_sw t) (t_olds t) (t_gfile t) (t_gflight t) v (t_golds t) (t_subm t) (t_gstart t) (t_gseen t) (t_skip t) (t_returned t) (t_osize t).
Definition set_golds (v : list (list gitem)) (t : rt) : rt := Rt (t_sites t) (t_nextp t) (t_bufs t) (t_gone t) (t_pend t) (t_nextid t) (t_kpc t) (t_ki t) (t_klast t) (t_kfull t) (t_kwrap t) (t_shadow t) (t_en t) (t_other t) (t_outst t) (t_flight t) (t_file t) (t_sync t) (t_waiters t) (t_kexit t) (t_sw t) (t_olds t) (t_gfile t) (t_gflight t) (t_glog t) v (t_subm t) (t_gstart t) (t_gseen t) (t_skip t) (t_returned t) (t_osize t).
Definition set_subm (v : list (list Z)) (t : rt) : rt := Rt (t_sites t) (t_nextp t) (t_bufs t) (t_gone t) (t_pend t) (t_nextid t) (t_kpc t) (t_ki t) (t_klast t) (t_kfull t) (t_kwrap t) (t_shadow t) (t_en t) (t_other t) (t_outst t) (t_flight t) (t_file t) (t_sync t) (t_waiters t) (t_kexit t) (t_sw t) (t_olds t) (t_gfile t) (t_gflight t) (t_glog t) (t_golds t) v (t_gstart t) (t_gseen t) (t_skip t) (t_returned t) (t_osize t).
Definition set_gstart (v : list Z) (t : rt) : rt := Rt (t_sites t) (t_nextp t) (t_bufs t) (t_gone t) (t_pend t) (t_nextid t) (t_kpc t) (t_ki t) (t_klast t) (t_kfull t) (t_kwrap t) (t_shadow t) (t_en t) (t_other t) (t_outst t) (t_flight t) (t_file t) (t_sync t) (t_waiters t) (t_kexit t) (t_sw t) (t_olds t) (t_gfile t) (t_gflight t) (t_glog t) (t_golds t) (t_subm t) v (t_gseen t) (t_skip t) (t_returned t) (t_osize t).
Definition set_gseen (v : list Z) (t : rt) : rt := Rt (t_sites t) (t_nextp t) (t_bufs t) (t_gone t) (t_pend t) (t_nextid t) (t_kpc t) (t_ki t) (t_klast t) (t_kfull t) (t_kwrap t) (t_shadow t) (t_en t) (t_other t) (t_outst t) (t_flight t) (t_file t) (t_sync t) (t_waiters t) (t_kexit t) (t_sw t) (t_olds t) (t_gfile t) (t_gflight t) (t_glog t) (t_golds t) (t_subm t) (t_gstart t) v (t_skip t) (t_returned t) (t_osize t).
Definition set_skip (v : bool) (t : rt) : rt := Rt (t_sites t) (t_nextp t) (t_bufs t) (t_gone t) (t_pend t) (t_nextid t) (t_kpc t) (t_ki t) (t_klast t) (t_kfull t) (t_kwrap t) (t_shadow t) (t_en t) (t_other t) (t_outst t) (t_flight t) (t_file t) (t_sync t) (t_waiters t) (t_kexit t) (t_sw t) (t_olds t) (t_gfile t) (t_gflight t) (t_glog t) (t_golds t) (t_subm t) (t_gstart t) (t_gseen t) v (t_returned t) (t_osize t).
Definition set_returned (v : list (list (Z * nat))) (t : rt) : rt := Rt (t_sites t) (t_nextp t) (t_bufs t) (t_gone t) (t_pend t) (t_nextid t) (t_kpc t) (t_ki t) (t_klast t) (t_kfull t) (t_kwrap t) (t_shadow t) (t_en t) (t_other t) (t_outst t) (t_flight t) (t_file t) (t_sync t) (t_waiters t) (t_kexit t) (t_sw t) (t_olds t) (t_gfile t) (t_gflight t) (t_glog t) (t_golds t) (t_subm t) (t_gstart t) (t_gseen t) (t_skip t) v (t_osize t).

Fixpoint update {A} (j : nat) (x : A) (l : list A) : list A :=
  match l, j with
  | [], _ => []
  | _ :: r, O => x :: r
  | y :: r, S j' => y :: update j' x r
  end.

Definition remove_at {A} (j : nat) (l : list A) : list A := firstn j l ++ skipn (S j) l.

(** A step of the ring of buffer [j]. *)
Definition on_ring (j : nat) (l : label) (t : rt) : option rt :=
  match nth_error (t_bufs t) j with
  | None => None
  | Some b =>
    match ring_step STAGING_BUFFER_SIZE l (b_ring b) with
    | None => None
    | Some r => Some (set_bufs (update j (Buf (b_id b) r (b_msgs b) (b_taken b)) (t_bufs t)) t)
    end
  end.

(** hintSyncCompleted.notify_one. *)
Definition notify (t : rt) : rt :=
  match t_waiters t with
  | [] => t
  | w :: ws =>
    set_waiters ws (set_returned (t_returned t ++ [w_snap w])
      (if w_switch w then set_sw SwStop t else t))
  end.

Definition encoded (t : rt) : Z := getEncodedBytes (t_en t).

(** RuntimeLogger.cc:397-413. *)
Definition k_dict (t : rt) : rt :=
  let t0 := set_kpc KScan (set_ki (t_klast t) (set_gstart (map b_id (t_bufs t)) (set_gseen [] (set_skip false t)))) in
  if t_nextp t <? zlen (t_sites t) then
    let '(e, n, _) := encodeNewDictionaryEntries (t_en t) (t_nextp t) (t_sites t) in
    let have := length (t_shadow t) in
    set_en e (set_nextp n
      (set_shadow (t_shadow t ++ firstn (Z.to_nat n - have) (skipn have (t_sites t)))
        (set_glog (t_glog t ++ if e_wp e =? e_wp (t_en t) then []
                               else [GDict n (firstn (Z.to_nat (n - t_nextp t)) (skipn (Z.to_nat (t_nextp t)) (t_sites t)))]) t0)))
  else t0.

(** The same when the test in 402, which is made without registrationMutex, does not
    see the latest statements. *)
Definition k_stale (t : rt) : rt :=
  set_kpc KScan (set_ki (t_klast t) (set_gstart (map b_id (t_bufs t)) (set_gseen [] (set_skip false t)))).

(** RuntimeLogger.cc:436-474, one turn of the loop. *)
Definition k_encode (t : rt) (b : buf) (n : Z) : option rt :=
  let r := b_ring b in
  let '(e, read, cnt) :=
    encodeLogMsgs (t_en t) (s_data (r_mem r)) (c_pos (r_c r)) (Z.min RELEASE n) (b_id b) (t_kwrap t) (t_shadow t) in
  let xs := firstn (Z.to_nat cnt) (skipn (b_taken b) (b_msgs b)) in
  let t1 := set_en e (set_glog (t_glog t ++ if e_wp e =? e_wp (t_en t) then [] else [GExtent (b_id b) (t_kwrap t) xs]) t) in
  if read =? 0 then Some (set_klast (t_ki t) (set_kfull true (set_kpc KNext t1)))
  else
    match ring_run STAGING_BUFFER_SIZE (LTake (Z.to_nat read) :: repeat LConsumer (S (Z.to_nat read))) r with
    | None => None
    | Some r' =>
      Some (set_kwrap false
        (set_bufs (update (Z.to_nat (t_ki t)) (Buf (b_id b) r' (b_msgs b) (b_taken b + Z.to_nat cnt)) (t_bufs t)) t1))
    end.

(** RuntimeLogger.cc:482-500. *)
Definition k_delete (t : rt) (b : buf) : rt :=
  let i := Z.to_nat (t_ki t) in
  let bs := remove_at i (t_bufs t) in
  let t1 := set_bufs bs (set_gone (t_gone t ++ [b]) (set_skip (t_skip t || (t_ki t =? t_klast t)) t)) in
  match bs with
  | [] => set_klast 0 (set_ki 0 (set_kwrap true (set_kpc KIdle t1)))
  | _ =>
    set_klast (if (t_ki t <=? t_klast t) && (0 <? t_klast t) then t_klast t - 1 else t_klast t)
      (set_ki (to_u 64 (t_ki t - 1)) (set_kpc KNext t1))
  end.

(** RuntimeLogger.cc:503-511. *)
Definition k_next (t : rt) : rt :=
  let i := to_u 64 (t_ki t + 1) mod zlen (t_bufs t) in
  set_ki i (set_kwrap (if i =? 0 then true else t_kwrap t)
    (set_kpc (if i =? t_klast t then KIdle else KScan) t)).

(** RuntimeLogger.cc:518-541. *)
Definition k_idle (t : rt) : rt :=
  if encoded t =? 0 then
    match t_sync t with
    | SYNC_REQUESTED => set_sync PERFORMING_SECOND_PASS (set_kpc KTop t)
    | PERFORMING_SECOND_PASS =>
      if t_outst t then set_sync WAITING_ON_AIO (set_kpc KIo t)
      else notify (set_sync SYNC_COMPLETED (set_kpc KIo t))
    | WAITING_ON_AIO => set_kpc KIo t
    | SYNC_COMPLETED => notify (set_kpc KIo t)
    end
  else set_kpc KIo t.

(** RuntimeLogger.cc:570-592, with the operation finished. *)
Definition k_finish_io (t : rt) : rt :=
  let t1 := set_outst false (set_kpc KWrite t) in
  match t_sync t with
  | WAITING_ON_AIO => notify (set_sync SYNC_COMPLETED t1)
  | _ => t1
  end.

(** RuntimeLogger.cc:543-592; aio_error is EINPROGRESS while a write is in flight;
    with the output buffer full the thread blocks in aio_suspend. *)
Definition k_io (t : rt) : option rt :=
  if t_outst t then
    match t_flight t with
    | [] => Some (k_finish_io t)
    | _ => if t_kfull t then None else Some (set_kpc KTop t)
    end
  else Some (set_kpc KWrite t).

(** RuntimeLogger.cc:594-624. *)
Definition k_write (t : rt) : rt :=
  let n := encoded t in
  if n =? 0 then set_kpc KTop t
  else
    let e := t_en t in
    let '(e', _) := swapBuffer e (t_other t) (t_osize t) in
    set_flight (t_flight t ++ [(e_base e, n)]) (set_gflight (t_gflight t ++ t_glog t) (set_glog []
      (set_subm (t_subm t ++ [load (e_mem e) (e_base e) (Z.to_nat n)])
        (set_outst true (set_en e' (set_other (e_base e) (set_kfull false (set_kpc KTop t)))))))).

(** A step of the compression thread; [None]: it has returned or blocks. *)
Definition k_step (t : rt) : option rt :=
  match t_kpc t with
  | KTop => Some (set_kpc (if negb (t_kexit t) || (0 <? encoded t) || t_outst t then KDict else KExit) t)
  | KDict => Some (k_dict t)
  | KScan =>
    if t_kfull t then Some (set_kpc KIdle t)
    else match t_bufs t with
         | [] => Some (set_kpc KIdle t)
         | _ => match on_ring (Z.to_nat (t_ki t)) LPeek t with Some t' => Some (set_kpc KPeek t') | None => None end
         end
  | KPeek =>
    match nth_error (t_bufs t) (Z.to_nat (t_ki t)) with
    | None => None
    | Some b =>
      match c_pc (r_c (b_ring b)) with
      | CHave n =>
        let t0 := set_gseen (t_gseen t ++ [b_id b]) t in
        if 0 <? n then Some (set_kpc KEnc t0)
        else match on_ring (Z.to_nat (t_ki t)) LCheck t0 with
             | Some t' => Some (set_kpc (if s_dead (r_mem (b_ring b)) then KCheck else KNext) t')
             | None => None
             end
      | CPeek _ | CRoll _ => on_ring (Z.to_nat (t_ki t)) LConsumer t
      | _ => None
      end
    end
  | KEnc =>
    match nth_error (t_bufs t) (Z.to_nat (t_ki t)) with
    | None => None
    | Some b =>
      match c_pc (r_c (b_ring b)) with
      | CHave n => if n =? 0 then Some (set_kpc KNext t) else k_encode t b n
      | _ => None
      end
    end
  | KCheck =>
    match nth_error (t_bufs t) (Z.to_nat (t_ki t)) with
    | None => None
    | Some b =>
      match c_pc (r_c (b_ring b)) with
      | CCheck =>
        match on_ring (Z.to_nat (t_ki t)) LConsumer t with
        | None => None
        | Some t' =>
          match nth_error (t_bufs t') (Z.to_nat (t_ki t)) with
          | None => None
          | Some b' =>
            match c_pc (r_c (b_ring b')) with
            | CDeleted => Some (k_delete t' b')
            | _ => Some (set_kpc KNext t')
            end
          end
        end
      | _ => None
      end
    end
  | KNext => Some (k_next t)
  | KIdle => Some (k_idle t)
  | KIo => k_io t
  | KWrite => Some (k_write t)
  | KExit => None
  end.

(** The number of bytes in memory and not consumed. *)
Definition visible_bytes (r : ring) : Z :=
  let m := r_mem r in let c := c_pos (r_c r) in
  if s_pos m <? c then (s_end m - c) + s_pos m else s_pos m - c.

(** The first [j] messages of this buffer have reached memory. *)
Definition visible (r : ring) (j : nat) : bool :=
  (j <=? length (r_sent r))%nat && (zlen (concat (firstn j (r_sent r))) <=? zlen (r_got r) + visible_bytes r).

Definition snap_ok (t : rt) (snap : list (Z * nat)) : bool :=
  forallb (fun p => existsb (fun b => (b_id b =? fst p) && visible (b_ring b) (snd p)) (t_bufs t ++ t_gone t)) snap.

(** What can happen:
    a statement is registered (registerInvocationSite, RuntimeLogger.h:51-70);
    a thread takes a buffer id, and adds its buffer (172-185);
    the thread of buffer [j] logs message [x], exits, takes a step, or one of
    the stores of either side reaches memory; the compression thread takes a step;
    write [k] completes; aio_suspend is interrupted by a signal (RuntimeLogger.cc:552-558);
    a thread calls sync() (719-729), or setLogFile (632-674), knowing the
    messages [snap] to be logged; the next thread to be woken is another one; a
    thread in sync() wakes without being woken; setLogFile tells the thread to stop (650-655); it has
    stopped and is started with the new file (657-673); the compression thread finds
    no new statements although there are some (402). *)
Inductive rlabel :=
| RRegister (s : site) | RAlloc | RPush (k : nat) | RLog (j : nat) (x : smsg) | RExit (j : nat) | RProducer (j : nat)
| RCommitP (j : nat) | RCommitC (j : nat) | RThread | RIoDone (k : nat) | RInterrupt
| RSync (snap : list (Z * nat)) | RRotate | RSpurious | RSwitch (snap : list (Z * nat)) | RStop | RRestart (rdtsc unixTime : Z) (cps : list Z)
| RStale.

Definition rt_step (l : rlabel) (t : rt) : option rt :=
  match l with
  | RRegister s => Some (set_sites (t_sites t ++ [s]) t)
  | RAlloc => Some (set_pend (t_pend t ++ [t_nextid t]) (set_nextid (t_nextid t + 1) t))
  | RPush k =>
    match nth_error (t_pend t) k with
    | None => None
    | Some id => Some (set_pend (remove_at k (t_pend t)) (set_bufs (t_bufs t ++ [Buf id (new_ring STAGING_BUFFER_SIZE) [] 0]) t))
    end
  | RLog j x =>
    match nth_error (t_sites t) (Z.to_nat (sm_id x)), nth_error (t_bufs t) j with
    | Some s, Some b =>
      match ring_step STAGING_BUFFER_SIZE (LLog (staged_bytes s x)) (b_ring b) with
      | None => None
      | Some r => Some (set_bufs (update j (Buf (b_id b) r (b_msgs b ++ [x]) (b_taken b)) (t_bufs t)) t)
      end
    | _, _ => None
    end
  | RExit j => on_ring j LExit t
  | RProducer j => on_ring j LProducer t
  | RCommitP j => on_ring j LCommitP t
  | RCommitC j => on_ring j LCommitC t
  | RThread => k_step t
  | RIoDone k =>
    match nth_error (t_flight t) k with
    | None => None
    | Some (base, n) =>
      Some (set_flight (remove_at k (t_flight t)) (set_file (t_file t ++ load (e_mem (t_en t)) base (Z.to_nat n))
        (set_gfile (t_gfile t ++ t_gflight t) (set_gflight [] t))))
    end
  | RInterrupt =>
    match t_kpc t, t_flight t with
    | KIo, _ :: _ => if t_outst t && t_kfull t then Some (k_finish_io t) else None
    | _, _ => None
    end
  | RSync snap =>
    if snap_ok t snap
    then Some (set_sync SYNC_REQUESTED (set_waiters (t_waiters t ++ [Waiter snap false]) t))
    else None
  | RRotate => match t_waiters t with [] => None | w :: ws => Some (set_waiters (ws ++ [w]) t) end
  | RSpurious => match t_waiters t with [] => None | _ => Some (notify t) end
  | RSwitch snap =>
    match t_sw t with
    | SwNone =>
      if snap_ok t snap
      then Some (set_sync SYNC_REQUESTED (set_sw SwSync (set_waiters (t_waiters t ++ [Waiter snap true]) t)))
      else None
    | _ => None
    end
  | RStop =>
    match t_sw t with
    | SwStop => Some (set_kexit true (set_sw SwJoin t))
    | _ => None
    end
  | RRestart rdtsc unixTime cps =>
    match t_sw t, t_kpc t with
    | SwJoin, KExit =>
      match encoder (e_mem (t_en t)) (e_base (t_en t)) (t_osize t) false rdtsc unixTime cps with
      | None => None
      | Some e =>
        Some (set_sw SwNone (set_kexit false (set_nextp 0
          (set_kpc KTop (set_ki 0 (set_klast 0 (set_kfull false (set_kwrap false (set_shadow [] (set_en e
            (set_olds (t_olds t ++ [t_file t]) (set_file []
              (set_golds (t_golds t ++ [t_gfile t ++ t_gflight t ++ t_glog t]) (set_gfile [] (set_gflight []
                (set_glog [GCheckpoint rdtsc unixTime cps] (set_subm [] t)))))))))))))))))
      end
    | _, _ => None
    end
  | RStale => match t_kpc t with KDict => Some (k_stale t) | _ => None end
  end.

(** RuntimeLogger(), RuntimeLogger.cc:39-106: buffers of [size] bytes at [b1] and [b2] in
    memory [m]. *)
Definition rt_init (m : mem) (size b1 b2 : Z) (rdtsc unixTime : Z) (cps : list Z) : option rt :=
  match encoder m b1 size false rdtsc unixTime cps with
  | None => None
  | Some e =>
    Some (Rt [] 0 [] [] [] 0 KTop 0 0 false false [] e b2 false [] [] SYNC_COMPLETED [] false SwNone
             [] [] [] [GCheckpoint rdtsc unixTime cps] [] [] [] [] false [] size)
  end.

Fixpoint rt_run (ls : list rlabel) (t : rt) : option rt :=
  match ls with
  | [] => Some t
  | l :: ls' => match rt_step l t with Some t' => rt_run ls' t' | None => None end
  end.
