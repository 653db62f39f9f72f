(** What a panic in the middle of a call leaves behind: the mutexes of the standard library are poisoned when a thread
    panics while it holds them.
    The panic may come from a backend (src/iocp/mod.rs:1009, see C97), from an expectation of the code that the system does
    not meet, or from the subscriber of the program that the tracing macros call. *)
From stdpp Require Import prelude list.
From Verif Require Import Types.
Local Open Scope nat_scope.

(** How the backend takes the lock on its own table: [unwrap] (src/poll.rs:217, 325); recovering the guard of a poisoned
    lock (src/kqueue.rs:181, 196, 211, src/iocp/mod.rs:63-67), where wait() holds no such lock while it waits; or no lock
    at all (epoll, event ports). *)
Inductive policy := Unwrap | Recover | NoLock.

(** std::sync::Mutex, of src/lib.rs:436 and src/poll.rs:25. *)
Inductive mutex := Free | Held (i : nat) | Poisoned.

Inductive pc :=
| Idle
(* wait: src/lib.rs:731-764 *)
| WTry                      (* line 735 try_lock *)
| WEnter                    (* line 744, calling the backend; it locks its table *)
| WInside                   (* in the backend *)
| WFlag (n : nat)           (* line 755 *)
| WRet (n : nat)            (* line 758, the guard is dropped *)
| WErr (e : io_error)       (* line 750, the guard is dropped *)
(* add, modify, delete *)
| OLock                     (* src/poll.rs:325, src/kqueue.rs:179-181 *)
| OInside
(* notify: src/lib.rs:788-800 *)
| NCas                      (* line 792 *)
| NSend                     (* line 797 *)
| Dead.                     (* the thread has panicked *)

Inductive obs :=
| WaitCall (i : nat)
| Asked (i : nat)           (* the backend's wait is called *)
| WaitRet (i : nat) (n : nat)
| WaitError (i : nat)
| WaitPanic (i : nat)       (* a panic leaves wait() *)
| Skipped (i : nat)         (* wait() takes it that another thread is waiting, and returns Ok(0), lines 760-763 *)
| OpCall (i : nat)
| OpDone (i : nat)
| OpPanic (i : nat)         (* add, modify or delete finds the lock of the backend poisoned, and panics *)
| OpOwnPanic (i : nat)      (* add, modify or delete panics for a reason of its own *)
| NotifyCall (i : nat)
| NotifySent (i : nat)      (* the backend is notified *)
| NotifyRet (i : nat)
| NotifyPanic (i : nat).    (* a panic leaves notify() *)

Record state := State {
  lock : mutex;             (* src/lib.rs:436 [lock] *)
  flag : bool;              (* src/lib.rs:437 [notified] *)
  table : mutex;            (* the lock of the backend *)
  threads : list pc;
  log : list obs }.
(** src/lib.rs:451-457, a new poller. *)
Definition init (n : nat) : state := State Free false Free (replicate n Idle) [].

(** Bookkeeping of the model: a thread moves. No code of its own. *)
Definition set_pc (s : state) (i : nat) (p : pc) : state := State (lock s) (flag s) (table s) (<[i := p]> (threads s)) (log s).
(** Bookkeeping of the model: the lock of src/lib.rs:436 changes. No code of its own. *)
Definition set_lock (s : state) (m : mutex) : state := State m (flag s) (table s) (threads s) (log s).
(** Bookkeeping of the model: the flag changes. No code of its own. *)
Definition set_flag (s : state) (b : bool) : state := State (lock s) b (table s) (threads s) (log s).
(** Bookkeeping of the model: the lock of the backend changes. No code of its own. *)
Definition set_table (s : state) (m : mutex) : state := State (lock s) (flag s) m (threads s) (log s).
(** Bookkeeping of the model: the history grows. No code of its own. *)
Definition emit (s : state) (o : obs) : state := State (lock s) (flag s) (table s) (threads s) (log s ++ [o]).

(** Unlocking, normally and while panicking (std::sync::MutexGuard). Not in /repo. *)
Definition release (m : mutex) : mutex := match m with Held _ => Free | m => m end.
(** Not in /repo. *)
Definition poison (m : mutex) : mutex := Poisoned.

(** The next step of src/lib.rs:731-800, as in [pc]. *)
Inductive act := CallWait | CallOp | CallNotify | Go | Return (n : nat) | Fail (e : io_error) | Panics.

(** A panic in [wait], while the guards are held: both locks are poisoned, the table only if this thread holds it.
    The guards are those of src/lib.rs:735 and src/poll.rs:217. *)
Definition unwind (s : state) (i : nat) : state :=
  emit (set_pc (set_lock (set_table s (match table s with Held j => if decide (j = i) then Poisoned else Held j | m => m end)) Poisoned)
          i Dead) (WaitPanic i).

Definition step (p : policy) (s : state) (l : nat * act) : option state :=
  let (i, a) := l in
  match threads s !! i with
  | None => None
  | Some q =>
    match q, a with
    | Idle, CallWait => Some (emit (set_pc s i WTry) (WaitCall i))
    | WTry, Go =>
        match lock s with
        | Free => Some (set_pc (set_lock s (Held i)) i WEnter)
        | Held _ | Poisoned => Some (emit (set_pc s i Idle) (Skipped i))   (* [if let Ok(_lock)] *)
        end
    | WEnter, Go =>
        match p with
        | Unwrap =>
            match table s with
            | Free => Some (emit (set_pc (set_table s (Held i)) i WInside) (Asked i))
            | Held _ => None
            | Poisoned => Some (unwind (emit s (Asked i)) i)
            end
        | Recover | NoLock => Some (emit (set_pc s i WInside) (Asked i))
        end
    | WInside, Return n =>
        Some (set_pc (set_table s (match p with Unwrap => release (table s) | _ => table s end)) i (WFlag n))
    | WInside, Fail e =>
        (* Interrupted: the loop of lines 738-759 *)
        Some (set_pc (set_table s (match p with Unwrap => release (table s) | _ => table s end)) i
                (match kind e with KInterrupted => WEnter | _ => WErr e end))
    | WEnter, Panics | WInside, Panics | WFlag _, Panics => Some (unwind s i)
    | WFlag n, Go => Some (set_pc (set_flag s false) i (WRet n))
    | WRet n, Go => Some (emit (set_pc (set_lock s (release (lock s))) i Idle) (WaitRet i n))
    | WErr e, Go => Some (emit (set_pc (set_lock s (release (lock s))) i Idle) (WaitError i))
    | Idle, CallOp => Some (emit (set_pc s i OLock) (OpCall i))
    | OLock, Go =>
        match p, table s with
        | NoLock, _ => Some (set_pc s i OInside)
        | _, Free => Some (set_pc (set_table s (Held i)) i OInside)
        | _, Held _ => None
        | Unwrap, Poisoned => Some (emit (set_pc s i Dead) (OpPanic i))
        | Recover, Poisoned => Some (set_pc s i OInside)   (* the guard is recovered; who holds it is not recorded *)
        end
    (* where no lock is held: src/os/kqueue.rs:156, and the spans of src/poll.rs:107, 146, 180 and their like.  With the lock
       held there is no such place (C97). *)
    | OLock, Panics => Some (emit (set_pc s i Dead) (OpOwnPanic i))
    | OInside, Go =>
        Some (emit (set_pc (set_table s (match p with NoLock => table s | _ => release (table s) end)) i Idle) (OpDone i))
    | Idle, CallNotify => Some (emit (set_pc s i NCas) (NotifyCall i))
    | NCas, Go =>
        if flag s then Some (emit (set_pc s i Idle) (NotifyRet i))
        else Some (set_pc (set_flag s true) i NSend)
    (* the spans of src/lib.rs:789 and, with the flag set, src/epoll.rs:259, src/poll.rs:304 and their like *)
    | NCas, Panics | NSend, Panics => Some (emit (set_pc s i Dead) (NotifyPanic i))
    | NSend, Go => Some (emit (emit (set_pc s i Idle) (NotifySent i)) (NotifyRet i))
    | _, _ => None
    end
  end.

(** A sequence of steps; not in /repo. *)
Inductive reachable (p : policy) (n : nat) : state -> Prop :=
| reach_init : reachable p n (init n)
| reach_step s l s' : reachable p n s -> step p s l = Some s' -> reachable p n s'.
