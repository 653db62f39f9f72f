(** Meaning of the concurrency properties of the poll backend. *)
From stdpp Require Import prelude list gmap.
From Verif Require Import Bits Types EventModel PollModel PollSpec PollConcModel.
Local Open Scope nat_scope.

(** Answers of poll(2) are as POSIX says, and hash maps yield every entry once. *)
Definition legal (s : state) (l : label) : Prop :=
  match l.2 with
  | KRet a => posix_answer (table s) (PollRet a.1 a.2)
  | Store order => hash_order (table s) order
  | _ => True
  end.

(** All schedules of any number of threads. *)
Inductive reachable (c : config) (n : nat) : state -> Prop :=
| reach_init : reachable c n (init c n)
| reach_step s l s' : reachable c n s -> legal s l -> step c s l = Some s' -> reachable c n s'.

(** The write of a wake-up fails. *)
Definition write_fault (s : state) (l : label) : Prop :=
  exists e, l.2 = Fault e /\
    (threads s !! l.1 = Some NWrite \/ exists cl, threads s !! l.1 = Some (OWrite cl)).

(** wait() finds itself notified but the channel empty (src/poll.rs:225). *)
Definition pop_fails (c : config) (s : state) (l : label) : Prop :=
  threads s !! l.1 = Some WPop /\ exists b, chan_pop (chan c) (bytes s) = Some (false, b).

(** Schedules in which writing a wake-up never fails. *)
Inductive reachable_w (c : config) (n : nat) : state -> Prop :=
| reach_w_init : reachable_w c n (init c n)
| reach_w_step s l s' : reachable_w c n s -> legal s l -> step c s l = Some s' ->
    ~ write_fault s l -> reachable_w c n s'.

(** ... and no wait() finds the channel empty either. *)
Inductive reachable_ok (c : config) (n : nat) : state -> Prop :=
| reach_ok_init : reachable_ok c n (init c n)
| reach_ok_step s l s' : reachable_ok c n s -> legal s l -> step c s l = Some s' ->
    ~ write_fault s l -> ~ pop_fails c s l -> reachable_ok c n s'.

(** ** Table *)

(** The thread is using the descriptor table. *)
Definition uses_table (p : pc) : Prop :=
  match p with
  | OPop _ | OApply _ | ODec _ | OSignal _ | OUnlock _
  | WSwap1 | WLoad | WPop | WPoll | WPopAll _ _ | WSwap3 _ | WUnlock _ | WUnlockErr _ => True
  | _ => False
  end.

(** The thread is in poll(2), or has not yet finished reading its answer. *)
Definition polling (p : pc) : Prop :=
  match p with WPoll | WPopAll _ _ | WSwap3 _ => True | _ => False end.

(** The table that results from performing the logged effects one after the other. *)
Fixpoint replay (o : own_fds) (t : fds) (h : list obs) : fds :=
  match h with
  | [] => t
  | OpEffect _ c _ :: r => replay o (do_call o t c).2 r
  | TurnEffect _ a flag order :: r => replay o (poll_turn t (PollRet a.1 a.2) flag order).2 r
  | _ :: r => replay o t r
  end.
Definition table_after (c : config) (h : list obs) : fds := replay (own c) (poll_new (own c)) h.

(** Events of thread [i] that delimit its add, modify and delete calls. *)
Definition op_boundary (i : nat) (o : obs) : bool :=
  match o with
  | OpCall j _ | OpRet j _ => bool_decide (i = j)
  | OpEffect j _ _ => bool_decide (i = j)
  | _ => false
  end.
Definition has_none (f : obs -> bool) (h : list obs) : Prop := forall o, o ∈ h -> f o = false.

(** Events of thread [i] that delimit its wait calls and their effects on the table. *)
Definition wait_boundary (i : nat) (o : obs) : bool :=
  match o with
  | TurnEffect j _ _ _ => bool_decide (i = j)
  | WaitCall j => bool_decide (i = j)
  | _ => false
  end.

(** ** Blocking *)

(** The thread is inside add, modify or delete and has announced itself. *)
Definition changing (p : pc) : Prop :=
  match p with
  | OWrite _ | OLock _ _ | OPop _ | OApply _ | ODec _ | OSignal _ => True
  | _ => False
  end.

(** A step that needs no new call, no failure and no spurious wake-up. *)
Definition internal (a : act) : Prop :=
  match a with Go | SignalTo _ | KRet _ | Store _ => True | _ => False end.

(** [k] internal steps lead from [s] to [s']. *)
Inductive internal_steps (c : config) : nat -> state -> state -> Prop :=
| int_nil s : internal_steps c 0 s s
| int_cons k s l s1 s2 : internal l.2 -> legal s l -> step c s l = Some s1 ->
    internal_steps c k s1 s2 -> internal_steps c (S k) s s2.

(** The thread can take an internal step; a call of poll(2) that has nothing to report counts
    as waiting. *)
Definition can_move (c : config) (s : state) (i : nat) : Prop :=
  exists a s', internal a /\ legal s (i, a) /\ step c s (i, a) = Some s' /\
    ((exists x, a = KRet x) -> 0 < bytes s).

(** Nothing is left to do: every thread is outside, or in poll(2) with nothing pending. *)
Definition settled (s : state) : Prop :=
  forall i p, threads s !! i = Some p -> p = Idle \/ (p = WPoll /\ bytes s = 0).

(** [s] follows [s0] without new calls. *)
Inductive no_new_calls (c : config) (s0 : state) : state -> Prop :=
| nnc_refl : no_new_calls c s0 s0
| nnc_step s i a s' : no_new_calls c s0 s -> step c s (i, a) = Some s' ->
    a <> CallNotify -> a <> CallWait -> (forall cl, a <> CallOp cl) -> no_new_calls c s0 s'.

(** ** Notifications *)

(** A notify() call that has returned Ok, and no wait() of any thread has returned Ok since
    that call was made. *)
Definition owed (h : list obs) : Prop :=
  exists h1 i h2 h3,
    h = h1 ++ [NotifyCall i] ++ h2 ++ [NotifyOk i] ++ h3 /\
    NotifyCall i ∉ h2 /\
    (forall j evs, WaitOk j evs ∉ h2 ++ h3).

(** The same, and no wait() has returned at all, not even with an error. *)
Definition owed_strictly (h : list obs) : Prop :=
  exists h1 i h2 h3,
    h = h1 ++ [NotifyCall i] ++ h2 ++ [NotifyOk i] ++ h3 /\
    NotifyCall i ∉ h2 /\
    (forall j evs, WaitOk j evs ∉ h2 ++ h3) /\ (forall j e, WaitError j e ∉ h2 ++ h3).

(** Another thread is inside notify() and about to wake the waiter. *)
Definition notifying (s : state) : Prop :=
  exists j, threads s !! j = Some NSwap \/ threads s !! j = Some NWrite.

(** Failed waits and notify() calls in a log. *)
Definition is_pop_error (o : obs) : bool :=
  match o with WaitError _ (EOs EAGAIN) => true | _ => false end.
Definition is_notify_call (o : obs) : bool := match o with NotifyCall _ => true | _ => false end.
Definition count (f : obs -> bool) (h : list obs) : nat := length (List.filter f h).

(** poll(2) itself never fails with EAGAIN here. *)
Definition poll_eagain (s : state) (l : label) : Prop :=
  l.2 = Fault (EOs EAGAIN) /\ threads s !! l.1 = Some WPoll.

(** Schedules that avoid the steps [bad]. *)
Inductive reachable_but (bad : state -> label -> Prop) (c : config) (n : nat) : state -> Prop :=
| reach_but_init : reachable_but bad c n (init c n)
| reach_but_step s l s' : reachable_but bad c n s -> legal s l -> step c s l = Some s' ->
    ~ bad s l -> reachable_but bad c n s'.

(** poll(2) fails. *)
Definition poll_fault (s : state) (l : label) : Prop :=
  exists e, l.2 = Fault e /\ threads s !! l.1 = Some WPoll.

(** ** Early returns *)
Definition is_empty_wait (o : obs) : bool := match o with WaitOk _ [] => true | _ => false end.
(** poll(2) came back by itself: it timed out, or it reports a descriptor other than the notifier. *)
Definition poll_reason (o : obs) : bool :=
  match o with
  | TurnEffect _ a false _ => negb (reports_notifier a && bool_decide (a.2 = 1))
  | _ => false
  end.
