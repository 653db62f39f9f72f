(** C107: a wait on a completion port does not sleep through a source that is ready. *)
From stdpp Require Import prelude list gmap.
From Verif Require Import Bits Types EventModel EventSpec Pool IocpModel IocpSpec.
Local Open Scope nat_scope.

(** What is the case outside: the conditions of AFD that hold of a socket, by their bit in
    AFD_POLL_*, and the waitable handles that are signalled. *)
Record world := World { holds : N -> N -> Prop; signalled : N -> Prop }.

(** What an interest in a socket waits for. *)
Definition ready (v : world) (x : N) (i : event N) : Prop :=
  exists b, holds v x b /\
    ((ev_readable i = true /\ (b = a_receive \/ b = a_accept \/ b = a_disconnect \/ b = a_abort \/ b = a_connect_fail))
     \/ (ev_writable i = true /\ (b = a_send \/ b = a_abort \/ b = a_connect_fail))
     \/ bit (ev_extra i) b).
(** An interest in a waitable handle waits for its signal. *)
Definition asks (i : event N) : Prop := ev_readable i = true \/ ev_writable i = true.

(** The system has nothing left to do: every request for which a condition holds, and every request
    that was told to end, was completed; the callback of every wait for a signalled handle was
    called; and no callback is under way. *)
Definition at_rest (v : world) (s : state) : Prop :=
  (forall o k, o ∈ ops (sys s) -> socks (pmem s) !! op_pk o = Some k ->
     op_cancel o = false /\ forall b, bit (op_mask o) b -> ~ holds v (sk_socket k) b)
  /\ (forall h n k, waits (sys s) !! h = Some n -> wtbs (pmem s) !! n = Some k -> ~ signalled v (wt_handle k))
  /\ cbs (sys s) = [].

(** wait() sleeps: it is in GetQueuedCompletionStatusEx, and there is no completion. *)
Definition asleep (s : state) : Prop := (exists l z, waiter s = WBlock l z) /\ queue (sys s) = [].

(** What is arranged for a waitable handle: a wait is registered for it, or its callback is under
    way, or a completion was posted and not processed yet. *)
Definition arranged_wait (s : state) (n : nat) : Prop :=
  (exists h, waits (sys s) !! h = Some n) \/ CbStart n ∈ cbs (sys s) \/ CbPost n ∈ cbs (sys s) \/ 0 < outstanding s (PWait n).

(** No add() or modify() of [x] was in progress when wait() read the clock, the last time before it blocked. *)
Definition clear_of (x : N) (h : list obs) : Prop :=
  forall i e m, calls_at_clock h !! i <> Some (CAdd x e m) /\ calls_at_clock h !! i <> Some (CModify x e m).
Definition clear_of_w (x : N) (h : list obs) : Prop :=
  forall i e m, calls_at_clock h !! i <> Some (CAddW x e m) /\ calls_at_clock h !! i <> Some (CModifyW x e m).
