(** Dropping the poller of src/iocp/mod.rs.  There is no Drop for it: its fields are dropped. *)
From stdpp Require Import prelude list gmap.
From Verif Require Import Types IocpModel.
Local Open Scope nat_scope.

(** Nobody uses the poller: the compiler demands this of a program that drops it. A rule of the language; not in /repo. *)
Definition unused (s : state) : Prop := waiter s = WOut /\ Forall (eq Out) (threads s).

(** What is left: the packets, the system, and the references in completions that nobody can take any more.
    src/iocp/mod.rs:71-114 without the poller. *)
Record remains := Remains { r_mem : mem; r_sys : kern; r_lost : list pid }.

(** src/iocp/mod.rs:71-114 [Poller]: the tables, the queue of updates and the notifier give up their references.
    The port is closed (src/iocp/port.rs:117-123); what is in its queue is forgotten by the system, and with it the
    references that src/iocp/port.rs:95-97 [into_ptr] turned into addresses. *)
Definition dropped (s : state) : remains :=
  Remains (fold_left drop_ref (map PSock (map_to_list (sources s)).*2 ++ map PWait (map_to_list (waitables s)).*2 ++ pending s ++ [PWake]) (pmem s))
          (Kern (ops (sys s)) [] (waits (sys s)) (cbs (sys s)) (fresh (sys s))) (queue (sys s)).

(** What can happen afterwards. *)
Inductive later_step :=
| SDone (i : nat) (b : iosb) (n : nat) (e : N)   (* AFD completes a request; the completion goes nowhere *)
| SSignal (h : nat)                              (* a wait is satisfied *)
| SCallback (j : nat).                           (* a callback makes a step *)
Definition after (r : remains) (l : later_step) : option remains :=
  let k := r_sys r in
  match l with
  | SDone i b n e =>
      o ← ops k !! i;
      x ← socks (r_mem r) !! op_pk o;
      Some (Remains (set_sock (r_mem r) (op_pk o) (with_buffer x b n e)) (set_ops k (remove_nth i (ops k))) (r_lost r ++ [PSock (op_pk o)]))
  | SSignal h =>
      n ← waits k !! h;
      Some (Remains (r_mem r) (Kern (ops k) (queue k) (delete h (waits k)) (cbs k ++ [CbStart n]) (fresh k)) (r_lost r))
  | SCallback j =>
      x ← cbs k !! j;
      match x with
      | CbStart n =>
          (* src/iocp/mod.rs:848-857: the port cannot be upgraded; the packet goes out of scope *)
          Some (Remains (drop_ref (r_mem r) (PWait n)) (set_cbs k (remove_nth j (cbs k))) (r_lost r))
      | CbPost n =>
          (* lines 863-866: this callback has kept the port open; it posts, and closes it *)
          Some (Remains (r_mem r) (set_cbs k (remove_nth j (cbs k))) (r_lost r ++ [PWait n]))
      end
  end.
(** A sequence of steps; not in /repo. *)
Inductive afterwards (r : remains) : remains -> Prop :=
| aft_now : afterwards r r
| aft_step r1 l r2 : afterwards r r1 -> after r1 l = Some r2 -> afterwards r r2.
