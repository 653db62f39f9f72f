(** Model of src/iocp/mod.rs:548-594 [afd_handle]: the pool of AFD instances that sockets share.  Any number of
    threads ask for an instance while any number of packets, each owning a reference, are dropped.  Every read of a
    reference count, every upgrade, every change of the pool, every system call and every drop is one step.
    Memory is sequentially consistent. *)
From stdpp Require Import prelude list gmap.
From Verif Require Import Types.
Local Open Scope nat_scope.

(** src/iocp/mod.rs:549. *)
Definition AFD_MAX_SIZE : nat := 32.

(** [Vec::swap_remove]: the last element takes the place of the removed one. Used at src/iocp/mod.rs:562, 577. *)
Definition swap_remove (i : nat) (l : list nat) : list nat :=
  match last l with None => [] | Some x => take (pred (length l)) (<[i:=x]> l) end.

(** Where a thread is in [afd_handle]: outside, waiting for the lock of the pool (553), at the head of the loop (555,
    557), at the upgrade (572), past the loop (585), registering a new instance (588), and past the return with an
    instance in hand, about to put it into its packet (202). *)
(** The numbers are lines of src/iocp/mod.rs. *)
Inductive pc := Out | Locking | Scan (k : nat) | Upgrade (k : nat) | New | Registering (a : nat) | Has (a : nat).

(** What happens, in order.  [Began]: a thread took the lock of the pool.  [Took]: it got a reference to an existing
    instance.  [Created]: it opened an instance and has the first reference.  [Refused]: the system refused.
    [Pruned]: a pointer was removed from the pool.  [Dropped]: a reference was given up.  [Closed]: the instance was
    freed and its handle closed.  [Given]: the call returned the instance. *)
(** Events of the history that the statements are about, not in /repo; they stand for src/iocp/mod.rs:553, 573, 585, 588, 562, and the drops of an Arc<Afd>. *)
Inductive obs :=
  | Began (i : nat) | Took (i a : nat) | Created (i a : nat) | Refused (i : nat) (e : errno) | Pruned (a : nat)
  | Dropped (a : nat) | Closed (a : nat) | Given (i a : nat).

(** The pool of weak pointers (86), the reference counts, the next unused address (simplification: the address of a
    freed instance is not used again; the allocation stays while the pool points to it), who has the lock of the pool, the
    threads, the packets (each with the instance it refers to, 1118) and the history. *)
(** src/iocp/mod.rs:86 and 1118. *)
Record state := St { pool : list nat; strong : gmap nat nat; fresh : nat; lock : option nat;
                     threads : list pc; packets : list nat; log : list obs }.
(** src/iocp/mod.rs:143: a new poller has an empty pool. *)
Definition start (n : nat) : state := St [] ∅ 0 None (replicate n Out) [] [].
(** [Weak::strong_count]. src/iocp/mod.rs:557. *)
Definition refcount (s : state) (a : nat) : nat := default 0 (strong s !! a).

(** Bookkeeping of the model: a thread moves. No code of its own. *)
Definition set_pc (s : state) (i : nat) (p : pc) : state :=
  St (pool s) (strong s) (fresh s) (lock s) (<[i:=p]> (threads s)) (packets s) (log s).
(** Bookkeeping of the model: the pool changes. No code of its own. *)
Definition set_pool (s : state) (l : list nat) : state :=
  St l (strong s) (fresh s) (lock s) (threads s) (packets s) (log s).
(** Bookkeeping of the model: a reference count changes. No code of its own. *)
Definition set_count (s : state) (a c : nat) : state :=
  St (pool s) (<[a:=c]> (strong s)) (fresh s) (lock s) (threads s) (packets s) (log s).
(** Bookkeeping of the model: the lock changes hands. No code of its own. *)
Definition set_lock (s : state) (l : option nat) : state :=
  St (pool s) (strong s) (fresh s) l (threads s) (packets s) (log s).
(** Bookkeeping of the model: the packets change. No code of its own. *)
Definition set_packets (s : state) (l : list nat) : state :=
  St (pool s) (strong s) (fresh s) (lock s) (threads s) l (log s).
(** Bookkeeping of the model: an address is used. No code of its own. *)
Definition bump (s : state) : state :=
  St (pool s) (strong s) (S (fresh s)) (lock s) (threads s) (packets s) (log s).
(** Bookkeeping of the model: the history grows. No code of its own. *)
Definition say (s : state) (d : list obs) : state :=
  St (pool s) (strong s) (fresh s) (lock s) (threads s) (packets s) (log s ++ d).

(** Dropping an [Arc<Afd>]: the last one closes the handle (src/iocp/afd.rs, [impl Drop for Afd]). *)
Definition drop_arc (s : state) (a : nat) : state :=
  let c := pred (refcount s a) in
  say (set_count s a c) (if decide (c = 0) then [Dropped a; Closed a] else [Dropped a]).

(** Removing the pointer at position [k] (562, 577). In src/iocp/mod.rs. *)
Definition prune (s : state) (k : nat) : state :=
  match pool s !! k with
  | None => s
  | Some a => say (set_pool s (swap_remove k (pool s))) [Pruned a]
  end.

(** One step of the thread [i]; the system answers [o] (used at 585 and 588).  Leaving the function releases the
    lock. *)
(** src/iocp/mod.rs:548-594. *)
Definition tstep (s : state) (i : nat) (p : pc) (o : option errno) : option state :=
  match p with
  | Out => Some (set_pc s i Locking)
  | Locking => match lock s with
               | Some _ => None
               | None => Some (say (set_pc (set_lock s (Some i)) i (Scan 0)) [Began i])
               end
  | Scan k => Some
      match pool s !! k with
      | None => set_pc s i New
      | Some a =>
          let c := refcount s a in
          if decide (c = 0) then set_pc (prune s k) i (Scan k)
          else if decide (AFD_MAX_SIZE <= c) then set_pc s i (Scan (S k))
          else set_pc s i (Upgrade k)
      end
  | Upgrade k =>
      match pool s !! k with
      | None => None
      | Some a => Some
          (if decide (refcount s a = 0) then set_pc (prune s k) i (Scan k)
           else say (set_pc (set_lock (set_count s a (S (refcount s a))) None) i (Has a)) [Took i a; Given i a])
      end
  | New => Some
      match o with
      | Some e => say (set_pc (set_lock s None) i Out) [Refused i e]
      | None => let a := fresh s in say (set_pc (bump (set_count s a 1)) i (Registering a)) [Created i a]
      end
  | Registering a => Some
      match o with
      | Some e => say (set_pc (set_lock (drop_arc s a) None) i Out) [Refused i e]
      | None => say (set_pc (set_lock (set_pool s (pool s ++ [a])) None) i (Has a)) [Given i a]
      end
  | Has a => Some (set_pc (set_packets s (packets s ++ [a])) i Out)
  end.

(** A thread moves, or the [k]-th packet is freed (by whoever drops its last reference: an add that finds the source
    registered, a delete, a completion). *)
(** The drops are those of src/iocp/mod.rs:1118 with the packet. *)
Inductive label := LThread (i : nat) (o : option errno) | LFree (k : nat).
(** One step of the system, not in /repo: see [tstep] for src/iocp/mod.rs:548-594. *)
Definition step (s : state) (l : label) : option state :=
  match l with
  | LThread i o => match threads s !! i with None => None | Some p => tstep s i p o end
  | LFree k => match packets s !! k with None => None | Some a => Some (drop_arc (set_packets s (delete k (packets s))) a) end
  end.
(** A sequence of steps; not in /repo. *)
Fixpoint run (s : state) (ls : list label) : option state :=
  match ls with [] => Some s | l :: ls => match step s l with None => None | Some s => run s ls end end.
