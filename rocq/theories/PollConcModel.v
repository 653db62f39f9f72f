(** Concurrent model of the poll backend (src/poll.rs) under the public [Poller] (src/lib.rs):
    add, modify, delete, wait and notify called from any number of threads.  Every atomic
    access, lock operation, condition-variable operation and system call is one step; the
    descriptor table is that of [PollModel].  Memory accesses are sequentially consistent:
    the code uses Ordering::SeqCst for every atomic of src/poll.rs. *)
From stdpp Require Import prelude list gmap.
From Verif Require Import Bits Types EventModel PollModel PollSpec.
Local Open Scope nat_scope.

(** Which notification channel is compiled in. *)
Inductive channel :=
| Pipe          (* src/poll.rs:631-737, non-blocking read end *)
| VitaPipe      (* the same with the blocking single read of lines 708-713 *)
| EspEventfd    (* src/poll.rs:740-830; reads return 0 instead of failing (lines 768-776) *)
| HermitEventfd. (* src/poll.rs:740-830 with the shim of lines 609-628: no EFD_NONBLOCK *)

(** The channel, the capacity of the pipe in bytes and the notifier's descriptors. src/poll.rs:646-656, 752-760. *)
Record config := Config { chan : channel; cap : nat; own : own_fds }.

(** src/poll.rs:739. *)
Definition is_eventfd (k : channel) : bool :=
  match k with EspEventfd | HermitEventfd => true | _ => false end.

(** src/poll.rs:694-698, 803-807 [Notify::notify]: a blocking write of one byte, or an addition
    to the counter (unbounded here).  [None]: blocks. *)
Definition chan_write (c : config) (b : nat) : option nat :=
  if is_eventfd (chan c) then Some (S b)
  else if decide (b < cap c) then Some (S b) else None.

(** src/poll.rs:701-723, 810-814 [Notify::pop_notification]: whether it succeeds, and what is
    left.  [None]: blocks. *)
Definition chan_pop (k : channel) (b : nat) : option (bool * nat) :=
  match k, b with
  | Pipe, 0 => Some (false, 0)
  | Pipe, S b' => Some (true, b')
  | VitaPipe, 0 => None
  | VitaPipe, S b' => Some (true, b')
  | EspEventfd, _ => Some (true, 0)
  | HermitEventfd, 0 => None
  | HermitEventfd, S _ => Some (true, 0)
  end.

(** What poll(2) returned, kept by the waiting thread: the flags of every entry and the number
    of entries with flags. *)
(** src/poll.rs:248-250. *)
Definition answer : Type := list N * nat.

(** Program counters. *)
Inductive pc :=
| Idle
(* notify: src/lib.rs:788-800 and src/poll.rs:303-316 *)
| NCas              (* src/lib.rs:792 *)
| NSwap             (* src/poll.rs:310 *)
| NWrite            (* src/poll.rs:311 *)
| NSignal           (* src/poll.rs:312 *)
| NRet
| NFail             (* the [?] of src/poll.rs:311 *)
(* add, modify, delete: src/poll.rs:319-339 *)
| OInc (c : call)              (* line 320 *)
| OWrite (c : call)            (* line 323 *)
| OLock (c : call) (sent : bool)   (* line 325 *)
| OPop (c : call)              (* line 329 *)
| OApply (c : call)            (* line 332 *)
| ODec (r : res unit)          (* line 334 *)
| OSignal (r : res unit)       (* line 335 *)
| OUnlock (r : res unit)       (* the guard is dropped, line 339 *)
| ORet (r : res unit)
(* wait: src/lib.rs:731-764 and src/poll.rs:205-300 *)
| WTry              (* src/lib.rs:735 try_lock *)
| WLock             (* src/poll.rs:217 *)
| WSwap1            (* line 222 *)
| WLoad             (* line 226 *)
| WSleep            (* line 230, asleep in Condvar::wait with the mutex released *)
| WWoken            (* line 230, woken, acquiring the mutex again *)
| WPop              (* line 225 *)
| WPoll             (* line 248, in poll(2) *)
| WPopAll (a : answer) (got : bool)   (* line 255; [got]: something has been read already *)
| WSwap3 (a : answer)          (* lines 261-296 *)
| WUnlock (evs : list (Z * event N))  (* line 299, the guard is dropped *)
| WUnlockErr (e : io_error)    (* the guard is dropped on an error, lines 225, 248 *)
| WFlag (evs : list (Z * event N))    (* src/lib.rs:755 *)
| WRet (evs : list (Z * event N))     (* src/lib.rs:758 *)
| WErr (e : io_error)          (* src/lib.rs:750 *)
| WPanic.

(** What happened, oldest first: calls and returns, and the points at which a call takes
    effect on the descriptor table. *)
(** The history that the statements are about; the calls and returns are those of src/lib.rs:548, 653, 688, 731, 788. *)
Inductive obs :=
| NotifyCall (i : nat)
| NotifyOk (i : nat)
| NotifyErr (i : nat)
| OpCall (i : nat) (c : call)
| OpEffect (i : nat) (c : call) (r : res unit)
| OpRet (i : nat) (r : res unit)
| WaitCall (i : nat)
| WaitContended (i : nat)
| PollStart (i : nat) (tab : fds)          (* poll(2) called with this table *)
| TurnEffect (i : nat) (a : answer) (flag : bool) (order : list Z)
| WaitOk (i : nat) (evs : list (Z * event N))
| WaitError (i : nat) (e : io_error).

Record state := State {
  lib_flag : bool;        (* src/lib.rs:437 [notified] *)
  lib_lock : option nat;  (* src/lib.rs:436 [lock] *)
  notified : bool;        (* src/poll.rs:36 [notified] *)
  ops : nat;              (* src/poll.rs:34 [waiting_operations] *)
  mutex : option nat;     (* src/poll.rs:25 [fds], the mutex *)
  bytes : nat;            (* what is in the channel *)
  table : fds;            (* src/poll.rs:25 [fds], the content *)
  threads : list pc;
  log : list obs
}.

(** src/poll.rs:70-89: a fresh poller used by [n] threads. *)
Definition init (c : config) (n : nat) : state :=
  State false None false 0 None 0 (poll_new (own c)) (replicate n Idle) [].

(** Bookkeeping of the model: a thread moves. No code of its own. *)
Definition set_pc (s : state) (i : nat) (p : pc) : state :=
  State (lib_flag s) (lib_lock s) (notified s) (ops s) (mutex s) (bytes s) (table s)
        (<[i:=p]> (threads s)) (log s).
(** Bookkeeping of the model: the flag of src/lib.rs changes. No code of its own. *)
Definition set_lib_flag (s : state) (b : bool) : state :=
  State b (lib_lock s) (notified s) (ops s) (mutex s) (bytes s) (table s) (threads s) (log s).
(** Bookkeeping of the model: the lock of src/lib.rs changes. No code of its own. *)
Definition set_lib_lock (s : state) (l : option nat) : state :=
  State (lib_flag s) l (notified s) (ops s) (mutex s) (bytes s) (table s) (threads s) (log s).
(** Bookkeeping of the model: the flag of src/poll.rs changes. No code of its own. *)
Definition set_notified (s : state) (b : bool) : state :=
  State (lib_flag s) (lib_lock s) b (ops s) (mutex s) (bytes s) (table s) (threads s) (log s).
(** Bookkeeping of the model: the counter changes. No code of its own. *)
Definition set_ops (s : state) (n : nat) : state :=
  State (lib_flag s) (lib_lock s) (notified s) n (mutex s) (bytes s) (table s) (threads s) (log s).
(** Bookkeeping of the model: the mutex changes hands. No code of its own. *)
Definition set_mutex (s : state) (l : option nat) : state :=
  State (lib_flag s) (lib_lock s) (notified s) (ops s) l (bytes s) (table s) (threads s) (log s).
(** Bookkeeping of the model: the channel changes. No code of its own. *)
Definition set_bytes (s : state) (n : nat) : state :=
  State (lib_flag s) (lib_lock s) (notified s) (ops s) (mutex s) n (table s) (threads s) (log s).
(** Bookkeeping of the model: the table changes. No code of its own. *)
Definition set_table (s : state) (t : fds) : state :=
  State (lib_flag s) (lib_lock s) (notified s) (ops s) (mutex s) (bytes s) t (threads s) (log s).
(** Bookkeeping of the model: the history grows. No code of its own. *)
Definition emit (s : state) (o : obs) : state :=
  State (lib_flag s) (lib_lock s) (notified s) (ops s) (mutex s) (bytes s) (table s) (threads s)
        (log s ++ [o]).

(** At src/poll.rs:230, in Condvar::wait. *)
Definition asleep (p : pc) : bool := match p with WSleep => true | _ => false end.

(** What happens next in the chosen thread. *)
Inductive act :=
| CallNotify
| CallWait
| CallOp (c : call)
| Go                          (* the next step, without failure *)
| SignalTo (t : option nat)   (* Condvar::notify_one wakes this sleeper; [None]: nobody sleeps *)
| Spurious                    (* a spurious wake-up of Condvar::wait *)
| Fault (e : io_error)        (* the next system call fails *)
| KRet (a : answer)           (* poll(2) returns *)
| Store (order : list Z).     (* lines 261-296, the hash map yields its entries in this order *)

Definition label : Type := nat * act.

(** Condvar::notify_one by thread [i], which continues at [p]. Called at src/poll.rs:312, 335. *)
Definition signal (s : state) (i : nat) (t : option nat) (p : pc) : option state :=
  match t with
  | Some j =>
      match threads s !! j with
      | Some WSleep => Some (set_pc (set_pc s j WWoken) i p)
      | _ => None
      end
  | None => if existsb asleep (threads s) then None else Some (set_pc s i p)
  end.

(** Whether an answer of poll(2) reports the notifier. src/poll.rs:249. *)
Definition reports_notifier (a : answer) : bool :=
  match a.1 with f :: _ => negb (is_empty f) | [] => false end.

Definition step (c : config) (s : state) (l : label) : option state :=
  let (i, a) := l in
  match threads s !! i with
  | None => None
  | Some p =>
    match p, a with
    (* notify *)
    | Idle, CallNotify => Some (emit (set_pc s i NCas) (NotifyCall i))
    | NCas, Go =>
        if lib_flag s then Some (set_pc s i NRet)
        else Some (set_pc (set_lib_flag s true) i NSwap)
    | NSwap, Go =>
        if notified s then Some (set_pc s i NRet)
        else Some (set_pc (set_notified s true) i NWrite)
    | NWrite, Go =>
        match chan_write c (bytes s) with
        | Some b => Some (set_pc (set_bytes s b) i NSignal)
        | None => None
        end
    | NWrite, Fault e => Some (set_pc s i NFail)
    | NSignal, SignalTo t => signal s i t NRet
    | NRet, Go => Some (emit (set_pc s i Idle) (NotifyOk i))
    | NFail, Go => Some (emit (set_pc s i Idle) (NotifyErr i))
    (* add, modify, delete; the check of lines 103, 142, 176 comes first *)
    | Idle, CallOp cl =>
        if has_fd (own c) (call_fd cl)
        then Some (emit (emit (set_pc s i (ORet (do_call (own c) (table s) cl).1)) (OpCall i cl))
                    (OpEffect i cl (do_call (own c) (table s) cl).1))
        else Some (emit (set_pc s i (OInc cl)) (OpCall i cl))
    | OInc cl, Go => Some (set_pc (set_ops s (S (ops s))) i (OWrite cl))
    | OWrite cl, Go =>
        match chan_write c (bytes s) with
        | Some b => Some (set_pc (set_bytes s b) i (OLock cl true))
        | None => None
        end
    | OWrite cl, Fault e => Some (set_pc s i (OLock cl false))
    | OLock cl sent, Go =>
        match mutex s with
        | None => Some (set_pc (set_mutex s (Some i)) i (if sent then OPop cl else OApply cl))
        | Some _ => None
        end
    | OPop cl, Go =>
        match chan_pop (chan c) (bytes s) with
        | Some (_, b) => Some (set_pc (set_bytes s b) i (OApply cl))
        | None => None
        end
    | OApply cl, Go =>
        let (r, t) := do_call (own c) (table s) cl in
        Some (emit (set_pc (set_table s t) i (ODec r)) (OpEffect i cl r))
    | ODec r, Go =>
        Some (set_pc (set_ops s (ops s - 1)) i (if decide (ops s = 1) then OSignal r else OUnlock r))
    | OSignal r, SignalTo t => signal s i t (OUnlock r)
    | OUnlock r, Go => Some (set_pc (set_mutex s None) i (ORet r))
    | ORet r, Go => Some (emit (set_pc s i Idle) (OpRet i r))
    (* wait *)
    | Idle, CallWait => Some (emit (set_pc s i WTry) (WaitCall i))
    | WTry, Go =>
        match lib_lock s with
        | None => Some (set_pc (set_lib_lock s (Some i)) i WLock)
        | Some _ => Some (emit (set_pc s i Idle) (WaitContended i))
        end
    | WLock, Go | WWoken, Go =>
        match mutex s with
        | None => Some (set_pc (set_mutex s (Some i)) i WSwap1)
        | Some _ => None
        end
    | WSwap1, Go => Some (set_pc (set_notified s false) i (if notified s then WPop else WLoad))
    | WLoad, Go =>
        if decide (ops s = 0) then Some (emit (set_pc s i WPoll) (PollStart i (table s)))
        else Some (set_pc (set_mutex s None) i WSleep)
    | WSleep, Spurious => Some (set_pc s i WWoken)
    | WPop, Go =>
        match chan_pop (chan c) (bytes s) with
        | Some (true, b) => Some (set_pc (set_bytes s b) i (WUnlock []))
        | Some (false, b) => Some (set_pc (set_bytes s b) i (WUnlockErr (EOs EAGAIN)))
        | None => None
        end
    | WPoll, Fault e => Some (set_pc s i (WUnlockErr e))
    | WPoll, KRet a =>
        (* the notifier is reported exactly if there is something in the channel *)
        if bool_decide (reports_notifier a = bool_decide (0 < bytes s))
        then Some (set_pc s i (if reports_notifier a then WPopAll a false else WSwap3 a))
        else None
    | WPopAll a got, Go =>
        if is_eventfd (chan c) then
          match chan_pop (chan c) (bytes s) with
          | Some (_, b) => Some (set_pc (set_bytes s b) i (WSwap3 a))
          | None => None
          end
        else if decide (bytes s = 0) then Some (set_pc s i (WSwap3 a))
        else Some (set_pc (set_bytes s (bytes s - 64)) i (WPopAll a true))
    | WSwap3 a, Store order =>
        let flag := notified s in
        let s1 := emit (set_notified s false) (TurnEffect i a flag order) in
        match poll_turn (table s) (PollRet a.1 a.2) flag order with
        | (TAgain, t) => Some (set_pc (set_table s1 t) i WSwap1)
        | (TDone evs, t) => Some (set_pc (set_table s1 t) i (WUnlock evs))
        | (TErr e, t) => Some (set_pc (set_table s1 t) i (WUnlockErr e))
        | (TPanic, t) => Some (set_pc (set_table s1 t) i WPanic)
        end
    | WUnlock evs, Go => Some (set_pc (set_mutex s None) i (WFlag evs))
    | WUnlockErr e, Go =>
        Some (set_pc (set_mutex s None) i
                (match kind e with KInterrupted => WLock | _ => WErr e end))
    | WFlag evs, Go => Some (set_pc (set_lib_flag s false) i (WRet evs))
    | WRet evs, Go => Some (emit (set_pc (set_lib_lock s None) i Idle) (WaitOk i evs))
    | WErr e, Go => Some (emit (set_pc (set_lib_lock s None) i Idle) (WaitError i e))
    | _, _ => None
    end
  end.

(** A sequence of steps; not in /repo. *)
Fixpoint run (c : config) (s : state) (ls : list label) : option state :=
  match ls with
  | [] => Some s
  | l :: r => match step c s l with Some s' => run c s' r | None => None end
  end.
