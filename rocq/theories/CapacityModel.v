(** The capacity of [Events]: src/lib.rs:832-860, 951-953, the containers of the backends, and the number of completions
    that wait asks of a completion port (src/iocp/port.rs:234).  Failing allocations, which end the process, are not
    modelled. *)
From Coq Require Import NArith Bool List.
From Verif Require Import Types.
Import ListNotations.
Open Scope N_scope.

(** isize::MAX and usize::MAX on a target with pointers of [bits] bits.
    Rust's, used by the standard library behind src/epoll.rs:318 and the like; not in /repo. *)
Definition isize_max (bits : N) : N := 2 ^ (bits - 1) - 1.
(** Rust's usize::MAX, not in /repo. *)
Definition usize_max (bits : N) : N := 2 ^ bits - 1.

(** The standard library's Vec::with_capacity for entries of [size] bytes: it panics ("capacity overflow") if the entries
    would take more than isize::MAX bytes.  The allocator may give [extra] entries more. *)
(** Called at src/epoll.rs:318, src/kqueue.rs:302, src/port.rs:186, src/poll.rs:374, src/iocp/mod.rs:624-625. *)
Definition vec_with_capacity (bits size cap extra : N) : res N :=
  if isize_max bits <? cap * size then Panic else Ok (N.min (cap + extra) (isize_max bits / size)).

(** The entries of [sys::Events]: the list that [iter] reads -- src/epoll.rs:308-310, src/kqueue.rs:292-294,
    src/port.rs:176-178, src/poll.rs:366-368, src/iocp/mod.rs:610-616 [packets] -- and on IOCP the buffer for completions
    (src/iocp/mod.rs:615 [completions]), each with the size of its entries in bytes. *)
Record layout := Layout { bits : N; item : N; entry : option N }.

(** The capacities of the two. The lines are those of [layout]: src/epoll.rs:308-310 and the like. *)
Record events := Events { listed : N; buffer : option N }.

(** src/epoll.rs:316-320, src/kqueue.rs:300-304, src/port.rs:184-188, src/poll.rs:372-376, src/iocp/mod.rs:622-627
    [sys::Events::with_capacity]; [x] and [y]: what the allocator gives in excess. *)
Definition sys_with_capacity (l : layout) (cap x y : N) : res events :=
  match vec_with_capacity (bits l) (item l) cap x with
  | Ok a =>
      match entry l with
      | None => Ok (Events a None)
      | Some size =>
          match vec_with_capacity (bits l) size cap y with
          | Ok b => Ok (Events a (Some b))
          | Err e => Err e
          | Panic => Panic
          end
      end
  | Err e => Err e
  | Panic => Panic
  end.

(** NonZeroUsize::new(x).unwrap(). Used at src/lib.rs:838 and 952. *)
Definition nonzero (x : N) : res N := if x =? 0 then Panic else Ok x.

(** src/lib.rs:855-860 [with_capacity]; the capacity is a NonZeroUsize. *)
Definition with_capacity (l : layout) (cap x y : N) : res events := sys_with_capacity l cap x y.

(** src/lib.rs:833-838: DEFAULT_CAPACITY on ESP-IDF and elsewhere. *)
Definition default_capacity (espidf : bool) : N := if espidf then 32 else 1024.

(** src/lib.rs:832-841 [Events::new] *)
Definition new (l : layout) (espidf : bool) (x y : N) : res events :=
  match nonzero (default_capacity espidf) with
  | Ok c => with_capacity l c x y
  | Err e => Err e
  | Panic => Panic
  end.

(** What happens to the container in use.  The list may be reallocated to a larger capacity (the allocator's choice [c])
    when an event is pushed (src/poll.rs:275, src/iocp/mod.rs:472); clear keeps it.  The buffer is refilled in place
    (src/iocp/port.rs:225, 247-250) and drained (src/iocp/mod.rs:465), which keeps its capacity. *)
Inductive use := Push (c : N) | Clear | Refill.
(** src/poll.rs:275, 384-386, src/iocp/mod.rs:465, 472, 635-637, src/iocp/port.rs:225, 249-252. *)
Definition step (e : events) (u : use) : events :=
  match u with
  | Push c => Events (N.max (listed e) c) (buffer e)
  | Clear | Refill => e
  end.

(** src/lib.rs:951-953 [Events::capacity] *)
Definition capacity (e : events) : res N := nonzero (listed e).

(** src/iocp/port.rs:234: the number of completions wait asks for; the argument is a u32. *)
Definition asked (e : events) : option (res N) :=
  match buffer e with
  | None => None
  | Some b => Some (if b <? 2 ^ 32 then Ok b else Panic)
  end.
