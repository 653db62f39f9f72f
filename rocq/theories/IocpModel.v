(** Model of src/iocp/mod.rs, src/iocp/afd.rs and src/iocp/port.rs: sockets, waitable handles,
    posted packets and notifications on a completion port.  Any number of threads call the
    methods; one thread at a time is inside wait() (src/lib.rs:735, C07).  Every section under
    the lock of a packet, every access to a shared map, queue or flag and every system call is one
    step.  Memory is sequentially consistent. *)
From stdpp Require Import prelude list gmap countable.
From Verif Require Import Bits Types EventModel.
Local Open Scope nat_scope.

(* ------------------------------------------------------------------ *)
(** ** Packets *)

(** src/iocp/mod.rs:729-752 [PacketInner]: the four kinds of packets, each with a number that
    stands for its address. *)
Inductive pid := PSock (n : nat) | PWait (n : nat) | PCustom (n : nat) | PWake.
Global Instance pid_eq_dec : EqDecision pid.
Proof. solve_decision. Defined.
(** Bookkeeping of the model: a number for every packet. No code of its own. *)
Definition pid_enc (p : pid) : nat * nat :=
  match p with PSock n => (0, n) | PWait n => (1, n) | PCustom n => (2, n) | PWake => (3, 0) end.
(** Bookkeeping of the model: its inverse. No code of its own. *)
Definition pid_dec (x : nat * nat) : pid :=
  match x with (0, n) => PSock n | (1, n) => PWait n | (2, n) => PCustom n | _ => PWake end.
Global Instance pid_countable : Countable pid.
Proof. refine (inj_countable' pid_enc pid_dec _). by intros [n|n|n|]. Defined.

(** src/iocp/mod.rs:1130-1142 [SocketStatus]. *)
Inductive sstatus := Idle | Polling (flags : N) | Cancelled.
(** The status field of the I/O status block: STATUS_PENDING, STATUS_CANCELLED, another negative
    value, or success. *)
(** Read at src/iocp/mod.rs:986-1002 and src/iocp/afd.rs:515. *)
Inductive iosb := BPending | BCancelled | BError | BDone.

(** src/iocp/mod.rs:1101-1127 [SocketState], the request buffer (src/iocp/afd.rs: AfdPollInfo, with
    one handle; its count and events) and src/iocp/afd.rs:599-615 [IoStatusBlock].  Simplification:
    the base socket and the AFD handle are not in the state (C63 is about the handles). *)
Record sock := Sock {
  sk_socket : N; sk_interest : event N; sk_error : bool; sk_mode : poll_mode;
  sk_deleting : bool; sk_status : sstatus;
  sk_in_use : bool; sk_iosb : iosb; sk_count : nat; sk_events : N
}.

(** src/iocp/mod.rs:1146-1179 [WaitableState]; the number in [WWaiting] is the wait handle. *)
Inductive wstatus := WIdle | WWaiting (w : nat) | WCancelled.
(** src/iocp/mod.rs:1146-1161. *)
Record wtb := Wtb { wt_handle : N; wt_interest : event N; wt_mode : poll_mode; wt_status : wstatus }.

(** Bookkeeping of the model: a field of [SocketState] (src/iocp/mod.rs:1101-1127) changes. *)
Definition with_interest (k : sock) (e : event N) (err : bool) (m : poll_mode) : sock :=
  Sock (sk_socket k) e err m (sk_deleting k) (sk_status k) (sk_in_use k) (sk_iosb k) (sk_count k) (sk_events k).
(** Bookkeeping of the model: a field of [SocketState] (src/iocp/mod.rs:1101-1127) changes. *)
Definition with_status (k : sock) (x : sstatus) : sock :=
  Sock (sk_socket k) (sk_interest k) (sk_error k) (sk_mode k) (sk_deleting k) x (sk_in_use k) (sk_iosb k)
    (sk_count k) (sk_events k).
(** Bookkeeping of the model: a field of [SocketState] (src/iocp/mod.rs:1101-1127) changes. *)
Definition with_deleting (k : sock) : sock :=
  Sock (sk_socket k) (sk_interest k) (sk_error k) (sk_mode k) true (sk_status k) (sk_in_use k) (sk_iosb k)
    (sk_count k) (sk_events k).
(** Bookkeeping of the model: [in_use] of src/iocp/afd.rs:573-588 changes. *)
Definition with_in_use (k : sock) (b : bool) : sock :=
  Sock (sk_socket k) (sk_interest k) (sk_error k) (sk_mode k) (sk_deleting k) (sk_status k) b (sk_iosb k)
    (sk_count k) (sk_events k).
(** Bookkeeping of the model: the system or src/iocp/afd.rs:455-474 writes the buffer. *)
Definition with_buffer (k : sock) (b : iosb) (n : nat) (e : N) : sock :=
  Sock (sk_socket k) (sk_interest k) (sk_error k) (sk_mode k) (sk_deleting k) (sk_status k) (sk_in_use k) b n e.
(** Bookkeeping of the model: fields of src/iocp/mod.rs:1146-1161 change. *)
Definition wt_with (k : wtb) (e : event N) (m : poll_mode) (x : wstatus) : wtb := Wtb (wt_handle k) e m x.

(** The packets, with the reference counts of their Arcs. src/iocp/mod.rs:722-752. *)
Record mem := Mem { socks : gmap nat sock; wtbs : gmap nat wtb; customs : gmap nat (event N);
                    next : nat; refs : gmap pid nat }.
(** The count of an Arc (src/iocp/mod.rs:722). *)
Definition count (m : mem) (p : pid) : nat := default 0 (refs m !! p).
(** Bookkeeping of the model: a packet changes. No code of its own. *)
Definition set_sock (m : mem) (n : nat) (k : sock) : mem :=
  Mem (<[n:=k]> (socks m)) (wtbs m) (customs m) (next m) (refs m).
(** Bookkeeping of the model: a packet changes. No code of its own. *)
Definition set_wtb (m : mem) (n : nat) (k : wtb) : mem :=
  Mem (socks m) (<[n:=k]> (wtbs m)) (customs m) (next m) (refs m).
(** Bookkeeping of the model: a count changes. No code of its own. *)
Definition set_refs (m : mem) (p : pid) (c : nat) : mem :=
  Mem (socks m) (wtbs m) (customs m) (next m) (<[p:=c]> (refs m)).
(** Arc::clone, for example at src/iocp/mod.rs:221. *)
Definition clone (m : mem) (p : pid) : mem := set_refs m p (S (count m p)).
(** The drop of an Arc<..> of src/iocp/mod.rs:722. *)
Definition drop_ref (m : mem) (p : pid) : mem := set_refs m p (pred (count m p)).

(* ------------------------------------------------------------------ *)
(** ** The system: AFD, the completion port and the thread pool (not part of /repo: trusted) *)

(** A poll request that AFD is working on; [op_cancel]: its cancellation was requested. Not in /repo. *)
Record op := Op { op_pk : nat; op_mask : N; op_cancel : bool }.
(** A thread-pool callback of a wait: before taking the lock, before posting.
    The closure of src/iocp/mod.rs:847-867 in progress. *)
Inductive cb := CbStart (n : nat) | CbPost (n : nat).
(** Poll requests, completion queue, registered waits (by wait handle), running callbacks. Not in /repo. *)
Record kern := Kern { ops : list op; queue : list pid; waits : gmap nat nat; cbs : list cb; fresh : nat }.
(** Bookkeeping of the model: the requests change. No code of its own. *)
Definition set_ops (k : kern) (l : list op) : kern := Kern l (queue k) (waits k) (cbs k) (fresh k).
(** A completion is queued. Not in /repo. *)
Definition enqueue (k : kern) (p : pid) : kern := Kern (ops k) (queue k ++ [p]) (waits k) (cbs k) (fresh k).
(** Bookkeeping of the model: the callbacks change. No code of its own. *)
Definition set_cbs (k : kern) (l : list cb) : kern := Kern (ops k) (queue k) (waits k) l (fresh k).

(** What a system call answers: nothing, or an error. *)
Notation kout := (option errno).
(** ERROR_INVALID_HANDLE is 6. src/iocp/mod.rs:920-923 looks for it. *)
Definition bad_handle (e : errno) : bool := match e with EOTHER 6 => true | _ => false end.

(** Is a request on packet [n] in flight?. Not in /repo. *)
Definition in_flight (k : kern) (n : nat) : bool := existsb (fun o => bool_decide (op_pk o = n)) (ops k).
(** Requesting the cancellation of the request on packet [n]. Not in /repo. *)
Definition cancel_op (n : nat) (o : op) : op :=
  if decide (op_pk o = n) then Op (op_pk o) (op_mask o) true else o.

(* ------------------------------------------------------------------ *)
(** ** Operations on a packet *)

(** The argument made at src/iocp/mod.rs:907-908. *)
Definition mask_of (k : sock) : N := event_to_afd_mask (sk_interest k) (sk_error k).

(** What an operation returns and leaves behind: packets, system, references that nobody owns any
    more, and whether the system refused something. *)
(** The results of src/iocp/mod.rs:827-934, 1056-1096. *)
Record eff := Eff { ef_res : res unit; ef_mem : mem; ef_sys : kern; ef_leak : list pid; ef_fault : bool }.

(** src/iocp/afd.rs:439-501 [Afd::poll] with the treatment of its result in
    src/iocp/mod.rs:905-930.  The packet is locked, the buffer written, a reference given to the
    system; a failing call gives neither the lock nor the reference back.  STATUS_SUCCESS and
    STATUS_PENDING are the same: the completion is queued in both cases. *)
Definition afd_poll (m : mem) (k : kern) (n : nat) (s : sock) (o : kout) : eff :=
  let mask := mask_of s in
  if sk_in_use s
  then Eff (Ok tt) (set_sock m n (with_status s (Polling mask))) k [] false
  else
    let s1 := with_buffer (with_in_use s true) BPending 1 mask in
    match o with
    | None => Eff (Ok tt) (clone (set_sock m n (with_status s1 (Polling mask))) (PSock n))
                  (set_ops k (ops k ++ [Op n mask false])) [] false
    | Some e =>
        if bad_handle e
        then Eff (Ok tt) (clone (set_sock m n (with_status s1 (Polling mask))) (PSock n)) k [PSock n] true
        else Eff (Err (EOs e)) (clone (set_sock m n s1) (PSock n)) k [PSock n] true
    end.

(** src/iocp/afd.rs:508-532 and src/iocp/mod.rs:1084-1096 [cancel].  The system answers
    STATUS_NOT_FOUND if there is no request. *)
Definition afd_cancel (m : mem) (k : kern) (n : nat) (s : sock) (o : kout) : eff :=
  let ok := set_sock m n (with_status s Cancelled) in
  match sk_iosb s with
  | BPending =>
      if in_flight k n
      then match o with
           | None => Eff (Ok tt) ok (set_ops k (map (cancel_op n) (ops k))) [] false
           | Some e => Eff (Err (EOs e)) (set_sock m n s) k [] true
           end
      else Eff (Ok tt) ok k [] false
  | _ => Eff (Ok tt) ok k [] false
  end.

(** src/iocp/mod.rs:788-817 [set_events]: the new packet and whether an update is needed. *)
Definition set_events_sock (k : sock) (e : event N) (m : poll_mode) : sock * bool :=
  let k' := with_interest k e true m in
  (k', match sk_status k with Polling f => bool_decide (mask_of k' <> f) | _ => true end).
(** src/iocp/mod.rs:805-814. *)
Definition set_events_wtb (k : wtb) (e : event N) (m : poll_mode) : wtb * bool :=
  (wt_with k e m (wt_status k), match wt_status k with WIdle => true | _ => false end).

(** src/iocp/mod.rs:834. *)
Definition no_interest (e : event N) : bool := negb (ev_readable e) && negb (ev_writable e).

(** src/iocp/mod.rs:827-934 [update]; the drop of the reference it is called with is in
    [do_update]. *)
Definition update (m : mem) (k : kern) (p : pid) (o : kout) : eff :=
  match p with
  | PSock n =>
      match socks m !! n with
      | None => Eff Panic m k [] false
      | Some s =>
          if sk_deleting s then Eff (Ok tt) m k [] false
          else
            match sk_status s with
            | Polling f =>
                if bool_decide (mask_of s <> f) then afd_cancel m k n s o else Eff (Ok tt) m k [] false
            | Cancelled => Eff (Ok tt) m k [] false
            | Idle => afd_poll m k n s o
            end
      end
  | PWait n =>
      match wtbs m !! n with
      | None => Eff Panic m k [] false
      | Some w =>
          if no_interest (wt_interest w) then Eff (Ok tt) m k [] false
          else
            match wt_status w with
            | WIdle =>
                (* the callback owns a reference; if it is not registered, src/iocp/mod.rs:1239-1258
                   does not take its box back *)
                match o with
                | None =>
                    Eff (Ok tt)
                      (clone (set_wtb m n (wt_with w (wt_interest w) (wt_mode w) (WWaiting (fresh k)))) p)
                      (Kern (ops k) (queue k) (<[fresh k := n]> (waits k)) (cbs k) (S (fresh k))) [] false
                | Some e => Eff (Err (EOs e)) (clone m p) k [p] true
                end
            | _ => Eff (Ok tt) m k [] false
            end
      end
  | _ => Eff (Err (ESimple KOther)) m k [] false
  end.

(** src/iocp/mod.rs:1056-1082 [begin_delete]; the drop of the reference is in [do_delete]. *)
Definition begin_delete (m : mem) (k : kern) (p : pid) (o : kout) : eff :=
  match p with
  | PSock n =>
      match socks m !! n with
      | None => Eff Panic m k [] false
      | Some s =>
          if sk_deleting s then Eff (Ok tt) m k [] false
          else
            match sk_status s with
            | Polling _ => afd_cancel m k n (with_deleting s) o
            | _ => Eff (Ok tt) (set_sock m n (with_deleting s)) k [] false
            end
      end
  | PWait n =>
      match wtbs m !! n with
      | None => Eff Panic m k [] false
      | Some w =>
          let m' := set_wtb m n (wt_with w (wt_interest w) (wt_mode w) WCancelled) in
          (* dropping the wait handle calls UnregisterWait (src/iocp/mod.rs:1198-1204); a callback
             that has not started never will, and its box is not taken back *)
          match wt_status w with
          | WWaiting h =>
              Eff (Ok tt) m' (Kern (ops k) (queue k) (delete h (waits k)) (cbs k) (fresh k))
                (match waits k !! h with Some _ => [p] | None => [] end) false
          | _ => Eff (Ok tt) m' k [] false
          end
      end
  | _ => Eff Panic m k [] false
  end.

(** src/iocp/mod.rs:971-1045: processing a completion under the lock of the socket. *)
Inductive fed := FClosed (k : sock) | FDeleting (k : sock) | FResult (k : sock) (r : option (event N)).
(** lines 973-1025: what the request says. *)
Definition reported (k : sock) : option (bool * bool * N) :=
  match sk_iosb k with
  | BCancelled => Some (false, false, 0%N)
  | BError => Some (true, true, 0%N)
  | _ =>
      if decide (1 <= sk_count k)
      then if intersects (sk_events k) AFD_LOCAL_CLOSE then None
           else let (r, w) := afd_mask_to_event (sk_events k) in Some (r, w, sk_events k)
      else Some (false, false, 0%N)
  end.
(** src/iocp/mod.rs:970-1045. *)
Definition feed_sock (k : sock) : fed :=
  let k1 := with_status k Idle in
  if sk_deleting k then FDeleting k1
  else
    match reported k with
    | None => FClosed k1
    | Some (r0, w0, flags) =>
        let key := ev_key (sk_interest k) in
        let r := r0 && ev_readable (sk_interest k) in
        let w := w0 && ev_writable (sk_interest k) in
        if r || w || intersects flags (ev_extra (sk_interest k))
        then
          FResult (match sk_mode k with
                   | Oneshot => with_interest k1 (Ev key false false 0%N) false (sk_mode k)
                   | _ => k1
                   end) (Some (Ev key r w flags))
        else FResult k1 None
    end.

(** src/iocp/mod.rs:953-966: a waitable. *)
Definition feed_wtb (k : wtb) : wtb * event N :=
  (match wt_mode k with
   | Oneshot => wt_with k (Ev (ev_key (wt_interest k)) false false 0%N) (wt_mode k) (wt_status k)
   | _ => k
   end, wt_interest k).

(* ------------------------------------------------------------------ *)
(** ** Threads *)

(** The calls of src/iocp/mod.rs:172, 235, 277, 304, 360, 400, 501 and src/lib.rs:788. *)
Inductive call :=
| CAdd (sock : N) (e : event N) (m : poll_mode)
| CModify (sock : N) (e : event N) (m : poll_mode)
| CDelete (sock : N)
| CAddW (h : N) (e : event N) (m : poll_mode)
| CModifyW (h : N) (e : event N) (m : poll_mode)
| CRemoveW (h : N)
| CPost (n : nat)            (* of a custom packet made before *)
| CNotify.

(** src/iocp/mod.rs:506-542: the steps of update_packet. *)
Inductive upc := ULoad | UDo | UPush | UDrain (n : nat) | UDrainDo (n : nat) (q : pid).

Inductive pc :=
| Out
| AMake (c : call)                   (* lines 194-213, 325-338 *)
| AInsert (c : call) (p : pid)       (* lines 216-228, 341-353 *)
| MLook (c : call)                   (* lines 257-265, 381-389 *)
| MSet (c : call) (p : pid)          (* lines 268, 392 *)
| Upd (c : call) (p : pid) (u : upc) (* lines 506-525 *)
| DRemove (c : call)                 (* lines 285-296, 403-414 *)
| DBegin (c : call) (p : pid)        (* lines 300, 418 *)
| NSwap (c : call)                   (* src/lib.rs:792-796 *)
| Post (c : call) (p : pid)          (* lines 495-503 *)
| Ret (c : call) (r : res unit).

(** The thread in wait(): lines 431-491.  Capacity of the buffer for completions, deadline,
    [notified], contents of the container. *)
Record loc := Loc { lc_cap : nat; lc_deadline : option N; lc_notified : bool; lc_events : list (pid * event N) }.
(** src/iocp/mod.rs:471-474. *)
Definition put (l : loc) (p : pid) (r : option (event N)) : loc :=
  match r with
  | Some e => Loc (lc_cap l) (lc_deadline l) (lc_notified l) (lc_events l ++ [(p, e)])
  | None => l
  end.
(** A thread in src/iocp/mod.rs:422-491 that never returns, or panics. *)
Inductive death := Deadlock | Panicked.
(** [zero]: the time left was zero when it was computed (line 452). *)
Inductive wpc :=
| WOut
| WSwap (l : loc)                                            (* line 439 *)
| WDrain (l : loc)                                           (* line 449 *)
| WDrainDo (l : loc) (q : pid)
| WBlock (l : loc) (zero : bool)                             (* line 455 *)
| WGot (l : loc) (zero : bool) (b : list pid)                (* line 462 *)
| WFeed (l : loc) (zero : bool) (b : list pid)               (* line 465 *)
| WOpen (l : loc) (zero : bool) (p : pid) (b : list pid)     (* line 469 *)
| WUpd (l : loc) (zero : bool) (b : list pid) (ret : option (event N)) (p : pid) (u : upc)
| WFail (l : loc) (e : io_error) (polls : bool)      (* leaving with an error; [polls]: the flag is still set *)
| WEnd (l : loc)
| WDead (d : death) (own b : list pid).          (* with the references it has *)

Inductive obs :=
| Called (i : nat) (c : call)
| Returned (i : nat) (c : call) (r : res unit)
| Armed (p : pid) (e : event N) (m : poll_mode)   (* made by add, or set by modify *)
| Entered (p : pid) (x : N)                       (* add entered it into the table of sources *)
| Removed (p : pid)                               (* begin_delete *)
| Fault (p : pid)                                 (* a system call for this packet failed *)
| Lost (p : pid)                                  (* a completion or an update was dropped *)
| Done (n : nat) (b : iosb) (e : N)               (* AFD completed the request of packet n and reported flags e *)
| Signalled (n : nat)                             (* the handle of waitable n was signalled *)
| Posted (p : pid)
| Fed (p : pid) (r : option (event N))            (* processed by wait *)
| WaitBegun (d : option N) (old : list (event N)) (* deadline, contents of the container *)
| Clock (now : N)                                 (* read by wait *)
| WaitRet (r : res unit) (evs : list (pid * event N)).  (* contents of the container *)

(** [notified]: the flag of src/lib.rs:437; [leaks]: references that nobody owns. *)
Record state := State {
  pmem : mem; sys : kern; sources : gmap N nat; waitables : gmap N nat;
  pending : list pid; polling : bool; notified : bool;
  waiter : wpc; threads : list pc; leaks : list pid; log : list obs
}.

(** Bookkeeping of the model: the packets change. No code of its own. *)
Definition set_mem (s : state) (m : mem) : state :=
  State m (sys s) (sources s) (waitables s) (pending s) (polling s) (notified s) (waiter s) (threads s) (leaks s) (log s).
(** Bookkeeping of the model: the system changes. No code of its own. *)
Definition set_sys (s : state) (k : kern) : state :=
  State (pmem s) k (sources s) (waitables s) (pending s) (polling s) (notified s) (waiter s) (threads s) (leaks s) (log s).
(** Bookkeeping of the model: the queue of updates changes. No code of its own. *)
Definition set_pending (s : state) (l : list pid) : state :=
  State (pmem s) (sys s) (sources s) (waitables s) l (polling s) (notified s) (waiter s) (threads s) (leaks s) (log s).
(** Bookkeeping of the model: the tables change. No code of its own. *)
Definition set_maps (s : state) (a b : gmap N nat) : state :=
  State (pmem s) (sys s) a b (pending s) (polling s) (notified s) (waiter s) (threads s) (leaks s) (log s).
(** Bookkeeping of the model: the flags change. No code of its own. *)
Definition set_flags (s : state) (p n : bool) : state :=
  State (pmem s) (sys s) (sources s) (waitables s) (pending s) p n (waiter s) (threads s) (leaks s) (log s).
(** Bookkeeping of the model: the waiting thread moves. No code of its own. *)
Definition set_waiter (s : state) (w : wpc) : state :=
  State (pmem s) (sys s) (sources s) (waitables s) (pending s) (polling s) (notified s) w (threads s) (leaks s) (log s).
(** Bookkeeping of the model: a thread moves. No code of its own. *)
Definition set_pc (s : state) (i : nat) (p : pc) : state :=
  State (pmem s) (sys s) (sources s) (waitables s) (pending s) (polling s) (notified s) (waiter s)
    (<[i:=p]> (threads s)) (leaks s) (log s).
(** Bookkeeping of the model: references are given up. No code of its own. *)
Definition leak (s : state) (l : list pid) : state :=
  State (pmem s) (sys s) (sources s) (waitables s) (pending s) (polling s) (notified s) (waiter s)
    (threads s) (leaks s ++ l) (log s).
(** Bookkeeping of the model: the history grows. No code of its own. *)
Definition emits (s : state) (o : list obs) : state :=
  State (pmem s) (sys s) (sources s) (waitables s) (pending s) (polling s) (notified s) (waiter s)
    (threads s) (leaks s) (log s ++ o).
(** Bookkeeping of the model: the history grows. No code of its own. *)
Definition emit (s : state) (o : obs) : state := emits s [o].

(** The capacity of the queue of updates (src/iocp/mod.rs:146); any positive number will do. *)
Record config := Config { capacity : nat }.

(** The effect of an operation on packet [p], then the drop of the reference.
    src/iocp/mod.rs:827 and 1056 take [self] by value. *)
Definition apply_eff (s : state) (p : pid) (e : eff) : state :=
  emits (leak (set_sys (set_mem s (drop_ref (ef_mem e) p)) (ef_sys e)) (ef_leak e))
    (if ef_fault e then [Fault p] else []).
(** src/iocp/mod.rs:827. *)
Definition do_update (s : state) (p : pid) (o : kout) : res unit * state :=
  let e := update (pmem s) (sys s) p o in (ef_res e, apply_eff s p e).
(** src/iocp/mod.rs:1056. *)
Definition do_delete (s : state) (p : pid) (o : kout) : res unit * state :=
  let e := begin_delete (pmem s) (sys s) p o in (ef_res e, emit (apply_eff s p e) (Removed p)).

(** src/iocp/mod.rs:506-542 *)
Definition ustep (c : config) (s : state) (p : pid) (u : upc) (o : kout) : state * (upc + res unit) :=
  match u with
  | ULoad => (s, inl (if polling s then UDo else UPush))
  | UDo => let (r, s') := do_update s p o in (s', inr r)
  | UPush =>
      if decide (length (pending s) < capacity c)
      then (set_pending s (pending s ++ [p]), inr (Ok tt))
      else (s, inl (UDrain (capacity c)))
  | UDrain 0 => (s, inl ULoad)
  | UDrain (S n) =>
      match pending s with
      | [] => (s, inl ULoad)
      | q :: l => (set_pending s l, inl (UDrainDo n q))
      end
  | UDrainDo n q =>
      let (r, s') := do_update s q o in
      match r with
      | Ok _ => (s', inl (UDrain n))
      (* leaving with the error drops the packet that was to be queued *)
      | _ => (emit (set_mem s' (drop_ref (pmem s') p)) (Lost p), inr r)
      end
  end.

(** src/iocp/mod.rs:187, 250, 318, 374. *)
Definition supported (m : poll_mode) : bool := match m with Oneshot | Level => true | _ => false end.
(** src/iocp/mod.rs:188-191, 251-254. *)
Definition invalid_input : res unit := Err (ESimple KInvalidInput).

(** Where a call starts. src/iocp/mod.rs:172-192, 235-255, 277, 304-323, 360-379, 400, 501; src/lib.rs:788. *)
Definition entry (c : call) : pc :=
  match c with
  | CAdd _ _ m | CAddW _ _ m => if supported m then AMake c else Ret c invalid_input
  | CModify _ _ m | CModifyW _ _ m => if supported m then MLook c else Ret c invalid_input
  | CDelete _ | CRemoveW _ => DRemove c
  | CPost n => Post c (PCustom n)
  | CNotify => NSwap c
  end.

(** A new packet, referenced by the thread that made it (no count was kept for its number). src/iocp/mod.rs:195-213, 326-338. *)
Definition new_packet (m : mem) (c : call) : option (mem * pid * obs) :=
  let n := next m in
  match c with
  | CAdd x e md =>
      Some (clone (Mem (<[n := Sock x e true md false Idle false BDone 0 0%N]> (socks m)) (wtbs m) (customs m) (S n)
                     (refs m)) (PSock n), PSock n, Armed (PSock n) e md)
  | CAddW h e md =>
      Some (clone (Mem (socks m) (<[n := Wtb h e md WIdle]> (wtbs m)) (customs m) (S n) (refs m)) (PWait n), PWait n, Armed (PWait n) e md)
  | _ => None
  end.

(** Entering a packet into its map: [None] if there is one already. src/iocp/mod.rs:216-228, 341-353. *)
Definition insert_packet (s : state) (c : call) (p : pid) : option state :=
  match c, p with
  | CAdd x e md, PSock n =>
      match sources s !! x with
      | Some _ => None
      | None => Some (emit (set_maps (set_mem s (clone (pmem s) p)) (<[x:=n]> (sources s)) (waitables s))
                        (Entered p x))
      end
  | CAddW h e md, PWait n =>
      match waitables s !! h with
      | Some _ => None
      | None => Some (emit (set_maps (set_mem s (clone (pmem s) p)) (sources s) (<[h:=n]> (waitables s)))
                        (Entered p h))
      end
  | _, _ => None
  end.
(** src/iocp/mod.rs:258-265, 382-389. *)
Definition lookup_packet (s : state) (c : call) : option pid :=
  match c with
  | CModify x _ _ | CDelete x => PSock <$> sources s !! x
  | CModifyW h _ _ | CRemoveW h => PWait <$> waitables s !! h
  | _ => None
  end.
(** src/iocp/mod.rs:286-296, 404-414. *)
Definition remove_packet (s : state) (c : call) : state :=
  match c with
  | CDelete x => set_maps s (delete x (sources s)) (waitables s)
  | CRemoveW h => set_maps s (sources s) (delete h (waitables s))
  | _ => s
  end.
(** set_events for the call, and whether an update is needed. src/iocp/mod.rs:788-817. *)
Definition do_set (s : state) (c : call) (p : pid) : option (state * bool) :=
  match c, p with
  | CModify x e md, PSock n =>
      k ← socks (pmem s) !! n;
      let (k', b) := set_events_sock k e md in
      Some (emit (set_mem s (set_sock (pmem s) n k')) (Armed p e md), b)
  | CModifyW x e md, PWait n =>
      k ← wtbs (pmem s) !! n;
      let (k', b) := set_events_wtb k e md in
      Some (emit (set_mem s (set_wtb (pmem s) n k')) (Armed p e md), b)
  | _, _ => None
  end.

(** src/iocp/port.rs:199-216 [post]: the reference is given to the port, also if it fails. *)
Definition do_post (s : state) (p : pid) (o : kout) : res unit * state :=
  match o with
  | Some e => (Err (EOs e), emit (leak s [p]) (Fault p))
  | None => (Ok tt, emit (set_sys s (enqueue (sys s) p)) (Posted p))
  end.

(** One step of thread [i] that is at [q]. See [pc] for the lines of src/iocp/mod.rs. *)
Inductive act := Call (c : call) | Go (o : kout).
(** The lines of src/iocp/mod.rs are those in [pc]. *)
Definition thread_step (c : config) (s : state) (i : nat) (q : pc) (a : act) : option state :=
  match q, a with
  | Out, Call cl => Some (emit (set_pc s i (entry cl)) (Called i cl))
  | AMake cl, Go o =>
      (* base_socket and afd_handle may fail *)
      match o with
      | Some e => Some (set_pc s i (Ret cl (Err (EOs e))))
      | None => '(m, p, o) ← new_packet (pmem s) cl; Some (set_pc (emit (set_mem s m) o) i (AInsert cl p))
      end
  | AInsert cl p, Go _ =>
      match insert_packet s cl p with
      | Some s' => Some (set_pc s' i (Upd cl p ULoad))
      | None => Some (set_pc (set_mem s (drop_ref (pmem s) p)) i (Ret cl (Err (ESimple KAlreadyExists))))
      end
  | MLook cl, Go _ =>
      match lookup_packet s cl with
      | Some p => Some (set_pc (set_mem s (clone (pmem s) p)) i (MSet cl p))
      | None => Some (set_pc s i (Ret cl (Err (ESimple KNotFound))))
      end
  | MSet cl p, Go _ =>
      '(s', b) ← do_set s cl p;
      Some (if b : bool then set_pc s' i (Upd cl p ULoad)
            else set_pc (set_mem s' (drop_ref (pmem s') p)) i (Ret cl (Ok tt)))
  | Upd cl p u, Go o =>
      let (s', x) := ustep c s p u o in
      Some (set_pc s' i (match x with inl u' => Upd cl p u' | inr r => Ret cl r end))
  | DRemove cl, Go _ =>
      match lookup_packet s cl with
      | Some p => Some (set_pc (remove_packet s cl) i (DBegin cl p))
      | None => Some (set_pc s i (Ret cl (Ok tt)))
      end
  | DBegin cl p, Go o => let (r, s') := do_delete s p o in Some (set_pc s' i (Ret cl r))
  | NSwap cl, Go _ =>
      if notified s then Some (set_pc s i (Ret cl (Ok tt)))
      else Some (set_pc (set_flags s (polling s) true) i (Post cl PWake))
  | Post cl p, Go o =>
      let (r, s') := do_post (set_mem s (clone (pmem s) p)) p o in Some (set_pc s' i (Ret cl r))
  | Ret cl r, Go _ => Some (emit (set_pc s i Out) (Returned i cl r))
  | _, _ => None
  end.

(** src/iocp/port.rs:276-299: taking the packet out of an entry unlocks it. *)
Definition unlock (m : mem) (p : pid) : mem :=
  match p with
  | PSock n => match socks m !! n with Some k => set_sock m n (with_in_use k false) | None => m end
  | _ => m
  end.
(** Dropping the entries of a batch (src/iocp/port.rs:295-299). *)
Definition discard (m : mem) (p : pid) : mem := drop_ref (unlock m p) p.
(** Leaving src/iocp/mod.rs:465-479 with an error drops the rest of the batch. *)
Definition abandon (s : state) (b : list pid) : state :=
  emits (set_mem s (foldl discard (pmem s) b)) (map Lost b).

(** src/iocp/mod.rs:940-1053 [feed_event], up to the call of update_packet, and lines 470-479. *)
Definition feed_step (s : state) (l : loc) (zero : bool) (p : pid) (b : list pid) (o : kout) : option state :=
  match p with
  | PWake =>
      Some (emit (set_waiter (set_mem s (drop_ref (pmem s) p))
                    (WFeed (Loc (lc_cap l) (lc_deadline l) true (lc_events l)) zero b)) (Fed p None))
  | PCustom n =>
      e ← customs (pmem s) !! n;
      Some (emit (set_waiter (set_mem s (drop_ref (pmem s) p)) (WFeed (put l p (Some e)) zero b)) (Fed p (Some e)))
  | PWait n =>
      w ← wtbs (pmem s) !! n;
      let (w', e) := feed_wtb w in
      Some (emit (set_waiter (set_mem s (set_wtb (pmem s) n w')) (WUpd l zero b (Some e) p ULoad)) (Fed p (Some e)))
  | PSock n =>
      k ← socks (pmem s) !! n;
      match feed_sock k with
      | FDeleting k' =>
          Some (emit (set_waiter (set_mem s (drop_ref (set_sock (pmem s) n k') p)) (WFeed l zero b)) (Fed p None))
      | FResult k' r =>
          Some (emit (set_waiter (set_mem s (set_sock (pmem s) n k')) (WUpd l zero b r p ULoad)) (Fed p r))
      | FClosed k' =>
          let s1 := emit (set_mem s (set_sock (pmem s) n k')) (Fed p None) in
          match sources s !! sk_socket k with
          | None => Some (set_waiter s1 (WDead Panicked [p] b))          (* unwrap of None *)
          | Some n' =>
              let s2 := set_maps s1 (delete (sk_socket k) (sources s)) (waitables s) in
              if decide (n' = n) then Some (set_waiter s2 (WDead Deadlock [p; p] b))  (* locks itself *)
              else
                let (r, s3) := do_delete s2 (PSock n') o in
                let s4 := set_mem s3 (drop_ref (pmem s3) p) in
                Some (match r with
                      | Ok _ => set_waiter s4 (WFeed l zero b)
                      | Err e => set_waiter (abandon s4 b) (WFail l e false)
                      | Panic => set_waiter s4 (WDead Panicked [] b)
                      end)
          end
      end
  end.

(** Is no time left?  saturating_duration_since is zero. src/iocp/mod.rs:452, 482-483. *)
Definition elapsed (d : option N) (now : N) : bool :=
  match d with Some t => (t <=? now)%N | None => false end.

(** One step of the thread in wait(). See [wpc] for the lines of src/iocp/mod.rs. *)
Inductive wact := WGo (o : kout) | WTime (now : N) | WTimeout | WError (e : errno) | WEvents.
Definition wait_step (c : config) (s : state) (a : wact) : option state :=
  match waiter s, a with
  | WSwap l, WGo _ => Some (set_waiter (set_flags s true (notified s)) (WDrain l))
  | WDrain l, WTime now =>
      match pending s with
      | [] => Some (emit (set_waiter s (WBlock l (elapsed (lc_deadline l) now))) (Clock now))
      | q :: r => Some (set_waiter (set_pending s r) (WDrainDo l q))
      end
  | WDrainDo l q, WGo o =>
      let (r, s') := do_update s q o in
      Some (set_waiter s' (match r with Ok _ => WDrain l | Err e => WFail l e true | Panic => WDead Panicked [] [] end))
  | WBlock l zero, WEvents =>
      if decide (queue (sys s) = []) then None
      else
        let k := sys s in
        Some (set_waiter (set_sys s (Kern (ops k) (drop (lc_cap l) (queue k)) (waits k) (cbs k) (fresh k)))
                (WGot l zero (take (lc_cap l) (queue k))))
  | WBlock l zero, WTimeout => Some (set_waiter s (WGot l zero []))
  | WBlock l zero, WError e => Some (set_waiter s (WFail l (EOs e) true))
  | WGot l zero b, WGo _ => Some (set_waiter (set_flags s false (notified s)) (WFeed l zero b))
  | WFeed l zero [], WGo _ =>
      if lc_notified l || negb (bool_decide (lc_events l = [])) || zero
      then Some (set_waiter s (WEnd l))
      else Some (set_waiter s (WSwap l))
  | WFeed l zero (p :: b), WGo _ => Some (set_waiter (set_mem s (unlock (pmem s) p)) (WOpen l zero p b))
  | WOpen l zero p b, WGo o => feed_step s l zero p b o
  | WUpd l zero b ret p u, WGo o =>
      let (s', x) := ustep c s p u o in
      Some (match x with
            | inl u' => set_waiter s' (WUpd l zero b ret p u')
            | inr (Ok _) => set_waiter s' (WFeed (put l p ret) zero b)
            | inr (Err e) => set_waiter (abandon s' b) (WFail l e false)
            | inr Panic => set_waiter s' (WDead Panicked [] b)
            end)
  | WFail l e g, WGo _ =>
      Some (emit (set_waiter (set_flags s (if g then false else polling s) (notified s)) WOut)
              (WaitRet (Err e) (lc_events l)))
  | WEnd l, WGo _ =>
      (* src/lib.rs:755: the notification is cleared *)
      Some (emit (set_waiter (set_flags s (polling s) false) WOut) (WaitRet (Ok tt) (lc_events l)))
  | _, _ => None
  end.

(** The flags that AFD reports: none, if it reports no socket (src/iocp/mod.rs:1002). *)
Definition flags_of (n : nat) (e : N) : N := if decide (1 <= n) then e else 0%N.

(** What the system does: AFD completes request number [i]; a wait is satisfied; a callback makes
    a step.  src/lib.rs:735-763 is there only as far as it clears the flag: a wait that was
    interrupted counts as two waits. *)
Inductive label :=
| LThread (i : nat) (a : act)
| LMake (e : event N)                                        (* src/iocp/mod.rs:704-706 *)
| LWait (cap : nat) (d : option N) (old : list (event N))    (* lines 422-433: old contents are cleared *)
| LWaiter (a : wact)
| LDone (i : nat) (b : iosb) (n : nat) (e : N)
| LSignal (h : nat)
| LCallback (j : nat) (o : kout).

(** Bookkeeping of the model: an element is taken out. No code of its own. *)
Definition remove_nth {A} (i : nat) (l : list A) : list A := take i l ++ drop (S i) l.

Definition step (c : config) (s : state) (l : label) : option state :=
  let k := sys s in
  match l with
  | LThread i a => q ← threads s !! i; thread_step c s i q a
  | LMake e =>
      let m := pmem s in
      Some (set_mem s (clone (Mem (socks m) (wtbs m) (<[next m := e]> (customs m)) (S (next m)) (refs m)) (PCustom (next m))))
  | LWait cap d old =>
      match waiter s with
      | WOut => Some (emit (set_waiter s (WSwap (Loc cap d false []))) (WaitBegun d old))
      | _ => None
      end
  | LWaiter a => wait_step c s a
  | LDone i b n e =>
      o ← ops k !! i;
      x ← socks (pmem s) !! op_pk o;
      Some (emit (set_sys (set_mem s (set_sock (pmem s) (op_pk o) (with_buffer x b n e)))
                    (enqueue (set_ops k (remove_nth i (ops k))) (PSock (op_pk o))))
              (Done (op_pk o) b (flags_of n e)))
  | LSignal h =>
      n ← waits k !! h;
      Some (emit (set_sys s (Kern (ops k) (queue k) (delete h (waits k)) (cbs k ++ [CbStart n]) (fresh k)))
              (Signalled n))
  | LCallback j o =>
      (* src/iocp/mod.rs:847-867 *)
      x ← cbs k !! j;
      match x with
      | CbStart n =>
          w ← wtbs (pmem s) !! n;
          Some (set_sys (set_mem s (set_wtb (pmem s) n (wt_with w (wt_interest w) (wt_mode w) WIdle)))
                  (set_cbs k (<[j := CbPost n]> (cbs k))))
      | CbPost n => Some (do_post (set_sys s (set_cbs k (remove_nth j (cbs k)))) (PWait n) o).2
      end
  end.

(** A sequence of steps; not in /repo. *)
Fixpoint run (c : config) (s : state) (ls : list label) : option state :=
  match ls with
  | [] => Some s
  | l :: r => match step c s l with Some s' => run c s' r | None => None end
  end.

(** src/iocp/mod.rs:121-155 [new], with [n] threads; the poller holds the notifier. *)
Definition init (n : nat) : state :=
  State (Mem ∅ ∅ ∅ 0 {[PWake := 1]}) (Kern [] [] ∅ [] 0) ∅ ∅ [] false false WOut (replicate n Out) [] [].
