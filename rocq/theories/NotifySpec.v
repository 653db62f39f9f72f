(** Meaning of the notification properties, in terms of the log of calls and returns. *)
From stdpp Require Import prelude list.
From Verif Require Import NotifyModel.

(** All schedules of any number of threads. *)
Inductive reachable (c : config) : state -> Prop :=
| reach_init n : reachable c (init n)
| reach_step s l s' : reachable c s -> step c s l = Some s' -> reachable c s'.

(** A step that is a failure of the platform's notify or of re-arming the notifier. *)
Definition harmful (s : state) (l : label) : Prop :=
  exists e, l.2 = Fault e /\ (threads s !! l.1 = Some NSys \/ threads s !! l.1 = Some WRearm).

(** Schedules in which those two calls never fail (anything else may). *)
Inductive reachable_ok (c : config) : state -> Prop :=
| reach_ok_init n : reachable_ok c (init n)
| reach_ok_step s l s' :
    reachable_ok c s -> step c s l = Some s' -> ~ harmful s l -> reachable_ok c s'.

(** A notify() call of thread [i] that has returned Ok, and no wait() of any thread has
    returned Ok since that call was made. *)
Definition owed (h : list obs) : Prop :=
  exists h1 i h2 h3,
    h = h1 ++ [NotifyCall i] ++ h2 ++ [NotifyOk i] ++ h3 /\
    NotifyCall i ∉ h2 /\
    (forall j, WaitOk j ∉ h2 ++ h3).

(** Thread [i] is inside wait() and blocked in the kernel. *)
Definition blocked_in_kernel (s : state) (i : nat) : Prop := threads s !! i = Some WKern.

(** Thread [i] is inside a wait() call that has the lock. *)
Definition waiting (p : pc) : Prop :=
  p = WPre \/ p = WKern \/ p = WClear \/ p = WRearm \/ p = WSwap \/ p = WRet \/ p = WErr.

(** Thread [i] is inside notify() and is about to wake the kernel. *)
Definition about_to_kick (s : state) (i : nat) : Prop := threads s !! i = Some NSys.

(** No thread is inside notify(). *)
Definition no_notify_in_progress (s : state) : Prop :=
  forall i p, threads s !! i = Some p -> p <> NCas /\ p <> NSys /\ p <> NDone /\ p <> NFail.

Definition is_kick (o : obs) : bool := match o with Kick _ => true | _ => false end.
Definition is_waitok (o : obs) : bool := match o with WaitOk _ => true | _ => false end.
Definition kicks (h : list obs) : nat := length (List.filter is_kick h).
Definition waits (h : list obs) : nat := length (List.filter is_waitok h).

(** No call is in progress. *)
Definition quiet (s : state) : Prop := forall i p, threads s !! i = Some p -> p = Idle.

(** [s] follows [s0] by steps in which neither the platform's notify nor the re-arming of the
    notifier fails. *)
Inductive later_ok (c : config) (s0 : state) : state -> Prop :=
| later_refl : later_ok c s0 s0
| later_step s l s' :
    later_ok c s0 s -> step c s l = Some s' -> ~ harmful s l -> later_ok c s0 s'.

(** [s] follows [s0] by calls of notify() only, whose platform part does not fail. *)
Inductive only_notifies (c : config) (s0 : state) : state -> Prop :=
| only_refl : only_notifies c s0 s0
| only_step s i a s' :
    only_notifies c s0 s -> step c s (i, a) = Some s' -> a = CallNotify \/ a = Go ->
    only_notifies c s0 s'.

(** Nothing in progress and nothing pending. *)
Definition clean (s : state) : Prop :=
  quiet s /\ lock s = None /\ flag s = false /\ tokens s = 0 /\ armed s = true.

(** Thread [i] alone carries on with its call, nothing is re-armed unsuccessfully, and a kernel
    wait that returns does report the pending notification. *)
Inductive alone (c : config) (i : nat) (s0 : state) : state -> Prop :=
| alone_refl : alone c i s0 s0
| alone_step s a s' :
    alone c i s0 s -> step c s (i, a) = Some s' ->
    a <> CallNotify -> a <> CallWait -> a <> KRet 0 -> ~ harmful s (i, a) -> alone c i s0 s'.

(** The calls under way go on: no new call, no failure or signal; a blocked kernel wait returns only to report the
    notification.  In [k] steps, by any scheduler. *)
Definition proceeds (a : act) : Prop := a = Go \/ exists n, a = KRet (S n).
Inductive going_on (c : config) : nat -> state -> state -> Prop :=
| going_none s : going_on c 0 s s
| going_step k s1 s i a s2 : going_on c k s1 s -> proceeds a -> step c s (i, a) = Some s2 -> going_on c (S k) s1 s2.
(** Nothing can go on. *)
Definition at_rest (c : config) (s : state) : Prop := forall i a s', proceeds a -> step c s (i, a) <> Some s'.
