(** Messages between threads that use a poller: threads post messages and call notify, others call wait and then look for
    messages.  The atomic flag of src/lib.rs is modelled with the visibility that the memory model of Rust (that of C++20)
    gives, not with an interleaving of accesses.

    Threads keep the set of messages whose posting happens before what they do next ([know]).  All accesses to the flag are
    SeqCst (src/lib.rs:755, 794), so that they are totally ordered and each finds the last value written.  A
    read-modify-write that succeeds acquires and releases; a compare_exchange that fails is only a load: it acquires and
    releases nothing.  System calls are not taken to order memory accesses, since the memory model does not mention them.
    The backend is reduced to a channel that holds a wake-up or not; that the channels of the backends work is C08 to C10,
    C34 and C64.  A backend's notify that fails is C11. *)
From stdpp Require Import prelude list gmap.
Local Open Scope nat_scope.

(** How the user keeps messages: under a mutex or by SeqCst operations only, so that a reader finds all that has been
    posted; or one atomic slot for each message, stored with Release and loaded with Acquire, so that a reader finds at
    least what it must. *)
(** The user's; not in /repo. *)
Inductive mailbox := Guarded | Slots.

(** What a thread is doing. *)
Inductive pc :=
| Idle
| Sending        (* in notify, between src/lib.rs:794 and 797: the flag is set, the backend not yet told *)
| Blocked        (* in the backend's wait, src/lib.rs:744 *)
| Woken          (* the backend's wait has returned Ok, the flag is not yet cleared: before src/lib.rs:755 *)
| Due.           (* wait has returned Ok, the thread has not yet looked for messages *)

(** A thread in src/lib.rs:731-800 or outside; not in /repo. *)
Record thread := Thread { at_ : pc; know : gset nat }.

Inductive obs :=
| Posted (i m : nat)
| Notified (i : nat) (merged : bool)     (* notify returned; [merged]: it found a notification pending *)
| Refused (i : nat)                      (* wait returned at once: another thread waits *)
| Returned (i : nat)                     (* wait returned Ok *)
| Failed (i : nat)                       (* wait returned an error *)
| Took (i : nat) (ms : gset nat).        (* what the thread found when it looked for messages *)

(** [flag]: the field notified of src/lib.rs; [flag_view]: what happens before an access that acquires it.  [lock_view]: the
    same of the mutex of src/lib.rs:735.  [chan]: the backend holds a wake-up.  [slots]: the messages posted, each with what
    happens before its posting. *)
Record state := State {
  flag : bool; flag_view : gset nat; lock_view : gset nat; chan : bool; slots : gmap nat (gset nat);
  threads : list thread; log : list obs
}.

(** Bookkeeping of the model: a thread moves. No code of its own. *)
Definition set_thread (s : state) (i : nat) (p : pc) (k : gset nat) : state :=
  State (flag s) (flag_view s) (lock_view s) (chan s) (slots s) (<[i := Thread p k]> (threads s)) (log s).
(** Bookkeeping of the model: the flag of src/lib.rs:437 changes. No code of its own. *)
Definition set_flag (s : state) (b : bool) (v : gset nat) : state :=
  State b v (lock_view s) (chan s) (slots s) (threads s) (log s).
(** Bookkeeping of the model: the view of the mutex changes. No code of its own. *)
Definition set_lock (s : state) (v : gset nat) : state :=
  State (flag s) (flag_view s) v (chan s) (slots s) (threads s) (log s).
(** Bookkeeping of the model: the channel changes. No code of its own. *)
Definition set_chan (s : state) (b : bool) : state :=
  State (flag s) (flag_view s) (lock_view s) b (slots s) (threads s) (log s).
(** Bookkeeping of the model: a message is posted. No code of its own. *)
Definition set_slots (s : state) (x : gmap nat (gset nat)) : state :=
  State (flag s) (flag_view s) (lock_view s) (chan s) x (threads s) (log s).
(** Bookkeeping of the model: the history grows. No code of its own. *)
Definition emit (s : state) (o : obs) : state :=
  State (flag s) (flag_view s) (lock_view s) (chan s) (slots s) (threads s) (log s ++ [o]).

(** src/lib.rs:451-457. *)
Definition init (n : nat) : state := State false ∅ ∅ false ∅ (replicate n (Thread Idle ∅)) [].

(** The mutex is held. src/lib.rs:735. *)
Definition in_wait (t : thread) : bool := match at_ t with Blocked | Woken => true | _ => false end.

Inductive act :=
| Post (m : nat)         (* post a message, with a number not used before *)
| Notify                 (* call notify, up to and including the compare_exchange *)
| Send                   (* the backend's notify *)
| Wait                   (* call wait, up to and including the try_lock *)
| Wake                   (* the backend's wait takes the wake-up and returns *)
| Other                  (* the backend's wait returns Ok for another reason and takes no wake-up *)
| Fail                   (* the backend's wait fails, having taken no wake-up *)
| Clear                  (* src/lib.rs:755, unlock, return *)
| Take (ms : gset nat).  (* look for messages *)

(** What a reader that knows [k] may find. The user's; not in /repo. *)
Definition may_find (b : mailbox) (s : state) (k ms : gset nat) : bool :=
  match b with
  | Guarded => bool_decide (ms = dom (slots s))
  | Slots => bool_decide (k ⊆ ms) && bool_decide (ms ⊆ dom (slots s))
  end.
(** What happens before the postings of the messages found. The memory model's; not in /repo. *)
Definition views (s : state) (ms : gset nat) : gset nat :=
  ⋃ ((fun m => default ∅ (slots s !! m)) <$> elements ms).

Definition step (b : mailbox) (s : state) (x : nat * act) : option state :=
  let i := x.1 in
  match threads s !! i with
  | None => None
  | Some t =>
      match at_ t, x.2 with
      | Idle, Post m =>
          match slots s !! m with
          | Some _ => None
          | None =>
              let k := {[m]} ∪ know t in
              Some (emit (set_slots (set_thread s i Idle k) (<[m := k]> (slots s))) (Posted i m))
          end
      | Idle, Notify =>   (* src/lib.rs:791-799 *)
          let k := flag_view s ∪ know t in
          if flag s then Some (emit (set_thread s i Idle k) (Notified i true))
          else Some (set_flag (set_thread s i Sending k) true k)
      | Sending, Send => Some (emit (set_chan (set_thread s i Idle (know t)) true) (Notified i false))
      | Idle, Wait =>     (* src/lib.rs:735 *)
          if existsb in_wait (threads s) then Some (emit s (Refused i))
          else Some (set_thread s i Blocked (lock_view s ∪ know t))
      | Blocked, Wake => if chan s then Some (set_chan (set_thread s i Woken (know t)) false) else None
      | Blocked, Other => Some (set_thread s i Woken (know t))
      | Blocked, Fail => Some (emit (set_lock (set_thread s i Idle (know t)) (know t)) (Failed i))
      | Woken, Clear =>   (* src/lib.rs:755-758 *)
          let k := flag_view s ∪ know t in
          Some (emit (set_lock (set_flag (set_thread s i Due k) false k) k) (Returned i))
      | Due, Take ms =>
          if may_find b s (know t) ms
          then Some (emit (set_thread s i Idle (views s ms ∪ know t)) (Took i ms)) else None
      | _, _ => None
      end
  end.

(** A sequence of steps; not in /repo. *)
Fixpoint run (b : mailbox) (ls : list (nat * act)) (s : state) : option state :=
  match ls with
  | [] => Some s
  | l :: r => match step b s l with Some s' => run b r s' | None => None end
  end.
