(** Concurrent model of [Poller::notify] and [Poller::wait] (src/lib.rs) on top of the
    notifiers of the epoll, kqueue and event-port backends.  Any number of threads; every
    atomic access, lock operation and system call is one step.  The poll and IOCP backends
    have their own models. *)
From stdpp Require Import prelude list.

(** Which notifier is compiled in. *)
Inductive notifier :=
| EpollEventfd   (* src/epoll.rs:410 Notifier::EventFd *)
| EpollPipe      (* src/epoll.rs:413 Notifier::Pipe *)
| KqUser         (* src/kqueue.rs:402-475, EVFILT_USER *)
| KqPipe         (* src/kqueue.rs:482-561, socket pair *)
| EvPort.        (* src/port.rs:137-150, port_send *)

(** Whether the notifier is a descriptor registered one-shot that wait has to re-arm.
    src/epoll.rs:222-227 and src/kqueue.rs:529-539; not src/kqueue.rs:435-438, src/port.rs. *)
Definition needs_rearm (k : notifier) : bool :=
  match k with EpollEventfd | EpollPipe | KqPipe => true | KqUser | EvPort => false end.

(** Program counters. *)
Inductive pc :=
| Idle
(* notify, src/lib.rs:788-800 *)
| NCas      (* about to compare_exchange(false, true), line 792-796 *)
| NSys      (* about to call the platform's notify, line 797 *)
| NDone     (* about to return Ok *)
| NFail     (* about to return the platform's error (the [?] of line 797) *)
(* wait, src/lib.rs:731-764 *)
| WTry      (* about to try_lock, line 735 *)
| WPre      (* platform wait, before the kernel wait: src/epoll.rs:167-192 *)
| WKern     (* blocked in epoll_wait / kevent / port_getn *)
| WClear    (* emptying the notifier: src/epoll.rs:222, src/kqueue.rs:531 *)
| WRearm    (* re-arming it: src/epoll.rs:223-227, src/kqueue.rs:534-538 *)
| WSwap     (* about to notified.swap(false), src/lib.rs:755 *)
| WRet      (* about to unlock and return Ok, src/lib.rs:758 *)
| WErr.     (* about to unlock and return the error, src/lib.rs:750 *)

(** What a user can observe of the calls. Calls and returns of src/lib.rs:731 and 788. *)
Inductive obs :=
| NotifyCall (i : nat)
| NotifyOk (i : nat)
| NotifyErr (i : nat)
| Kick (i : nat)            (* the platform's notify was performed *)
| WaitCall (i : nat)
| WaitContended (i : nat)   (* wait returned Ok(0) because another thread waits *)
| WaitOk (i : nat)
| WaitError (i : nat).

Record state := State {
  flag : bool;          (* src/lib.rs:437 [notified] *)
  lock : option nat;    (* src/lib.rs:436 [lock] *)
  tokens : nat;         (* eventfd counter / bytes in the pipe / EVFILT_USER triggered /
                           user events queued on the port *)
  armed : bool;         (* registration of the notifier descriptor is enabled in the kernel *)
  threads : list pc;
  log : list obs        (* oldest first *)
}.

(** src/epoll.rs:41-86, src/kqueue.rs:51-71, src/port.rs:21-32: a fresh poller with [n]
    threads using it. *)
Definition init (n : nat) : state := State false None 0 true (replicate n Idle) [].

(** What happens next in the chosen thread. The next step of src/lib.rs:731-800 and the backends, as in [pc]. *)
Inductive act :=
| CallNotify
| CallWait
| Go                       (* the next step, without failure *)
| Fault (eintr : bool)     (* the next system call fails, with EINTR or another error *)
| KRet (k : nat).          (* the kernel wait returns, reporting [k] notifier tokens *)

(** A thread of src/lib.rs:731-800 and what it does. *)
Definition label : Type := nat * act.

(** Bookkeeping of the model: a thread moves. No code of its own. *)
Definition set_pc (s : state) (i : nat) (p : pc) : state :=
  State (flag s) (lock s) (tokens s) (armed s) (<[i:=p]> (threads s)) (log s).
(** Bookkeeping of the model: the flag changes. No code of its own. *)
Definition set_flag (s : state) (b : bool) : state :=
  State b (lock s) (tokens s) (armed s) (threads s) (log s).
(** Bookkeeping of the model: the lock changes hands. No code of its own. *)
Definition set_lock (s : state) (l : option nat) : state :=
  State (flag s) l (tokens s) (armed s) (threads s) (log s).
(** Bookkeeping of the model: the channel changes. No code of its own. *)
Definition set_tokens (s : state) (t : nat) : state :=
  State (flag s) (lock s) t (armed s) (threads s) (log s).
(** Bookkeeping of the model: the registration changes. No code of its own. *)
Definition set_armed (s : state) (b : bool) : state :=
  State (flag s) (lock s) (tokens s) b (threads s) (log s).
(** Bookkeeping of the model: the history grows. No code of its own. *)
Definition emit (s : state) (o : obs) : state :=
  State (flag s) (lock s) (tokens s) (armed s) (threads s) (log s ++ [o]).

(** The notifier, the capacity of its pipe or socket buffer in one-byte messages, and the
    number of bytes one read takes (src/epoll.rs:495 reads 1024 at a time, src/kqueue.rs:531
    reads 64).  All theorems hold for every positive value of the two numbers. *)
Record config := Config { kind_of : notifier; pipe_cap : nat; read_size : nat }.
(** Numbers of the system and of src/epoll.rs:495; positive. *)
Definition wf_config (c : config) : Prop := 0 < pipe_cap c /\ 0 < read_size c.

(** The platform's notify, performed without failure.
    - eventfd (src/epoll.rs:475-478): the counter grows; at the maximum the write fails with
      EAGAIN, which is ignored, and the counter stays non-zero.  Unbounded here.
    - epoll pipe (src/epoll.rs:480-482): a blocking write: disabled when the pipe is full.
    - kqueue EVFILT_USER (src/kqueue.rs:441-454): NOTE_TRIGGER, idempotent.
    - kqueue socket pair (src/kqueue.rs:543-548): non-blocking write; a full buffer gives an
      error that src/kqueue.rs:262 ignores.
    - port (src/port.rs:147): one more user event is queued. *)
Definition kick (c : config) (t : nat) : option nat :=
  match kind_of c with
  | EpollEventfd => Some (S t)
  | EpollPipe => if decide (t < pipe_cap c) then Some (S t) else None
  | KqUser => Some 1
  | KqPipe => if decide (t < pipe_cap c) then Some (S t) else Some t
  | EvPort => Some (S t)
  end.

(** Whether a blocked kernel wait has a notification to report. epoll_wait, kevent, port_getn: not in /repo. *)
Definition kernel_ready (k : notifier) (s : state) : bool :=
  bool_decide (0 < tokens s) && (armed s || negb (needs_rearm k)).

(** The kernel wait returns reporting [n] notifier tokens (0: I/O events or timeout only; the
    notifier's event may also be left for the next wait if the container is full).
    - one-shot descriptors are disarmed by the report (EPOLLONESHOT / EV_ONESHOT);
    - EVFILT_USER with EV_CLEAR is reset by the report (src/kqueue.rs:421-429);
    - port_getn removes the reported user events. *)
Definition kernel_return (k : notifier) (s : state) (n : nat) : option state :=
  match n with
  | 0 => Some s
  | S _ =>
      if kernel_ready k s then
        match k with
        | EpollEventfd | EpollPipe | KqPipe =>
            if decide (n = 1) then Some (set_armed s false) else None
        | KqUser => if decide (n = 1) then Some (set_tokens s 0) else None
        | EvPort => if decide (n <= tokens s) then Some (set_tokens s (tokens s - n)) else None
        end
      else None
  end.

(** Where the platform wait continues after the kernel wait. src/epoll.rs:222, src/kqueue.rs:249, src/port.rs:133. *)
Definition after_kernel (k : notifier) : pc := if needs_rearm k then WClear else WSwap.

Definition step (c : config) (s : state) (l : label) : option state :=
  let (i, a) := l in
  match threads s !! i with
  | None => None
  | Some p =>
    match p, a with
    | Idle, CallNotify => Some (emit (set_pc s i NCas) (NotifyCall i))
    | Idle, CallWait => Some (emit (set_pc s i WTry) (WaitCall i))
    (* notify *)
    | NCas, Go =>
        if flag s then Some (set_pc s i NDone) else Some (set_pc (set_flag s true) i NSys)
    | NSys, Go =>
        match kick c (tokens s) with
        | Some t => Some (emit (set_pc (set_tokens s t) i NDone) (Kick i))
        | None => None
        end
    | NSys, Fault _ =>
        (* src/epoll.rs:477,481 and src/kqueue.rs:262 ignore the error, src/port.rs:147 returns it *)
        match kind_of c with
        | EvPort => Some (set_pc s i NFail)
        | _ => Some (set_pc s i NDone)
        end
    | NDone, Go => Some (emit (set_pc s i Idle) (NotifyOk i))
    | NFail, Go => Some (emit (set_pc s i Idle) (NotifyErr i))
    (* wait *)
    | WTry, Go =>
        match lock s with
        | None => Some (set_pc (set_lock s (Some i)) i WPre)
        | Some _ => Some (emit (set_pc s i Idle) (WaitContended i))
        end
    | WPre, Go => Some (set_pc s i WKern)
    | WPre, Fault eintr => Some (set_pc s i (if eintr then WPre else WErr))
    | WKern, KRet n =>
        match kernel_return (kind_of c) s n with
        | Some s' => Some (set_pc s' i (after_kernel (kind_of c)))
        | None => None
        end
    | WKern, Fault eintr => Some (set_pc s i (if eintr then WPre else WErr))
    | WClear, Go =>
        match kind_of c with
        | EpollEventfd => Some (set_pc (set_tokens s 0) i WRearm)
        | _ => if decide (tokens s = 0) then Some (set_pc s i WRearm)
               else Some (set_tokens s (tokens s - read_size c))
        end
    | WRearm, Go => Some (set_pc (set_armed s true) i WSwap)
    | WRearm, Fault eintr => Some (set_pc s i (if eintr then WPre else WErr))
    | WSwap, Go => Some (set_pc (set_flag s false) i WRet)
    | WRet, Go => Some (emit (set_pc (set_lock s None) i Idle) (WaitOk i))
    | WErr, Go => Some (emit (set_pc (set_lock s None) i Idle) (WaitError i))
    | _, _ => None
    end
  end.

(** A sequence of steps; not in /repo. *)
Fixpoint run (c : config) (s : state) (ls : list label) : option state :=
  match ls with
  | [] => Some s
  | l :: r => match step c s l with Some s' => run c s' r | None => None end
  end.
