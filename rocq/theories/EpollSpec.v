(** Meaning of the epoll properties: what the user registered, read off the log of calls and
    returns, and what must be reported. *)
From stdpp Require Import prelude list gmap.
From Verif Require Import Bits Types EventModel EventSpec EpollModel.
Local Open Scope nat_scope.

(** Descriptors the program can name: not the poller's own. *)
Definition user_fd (c : config) (fd : Z) : Prop := fd <> notifier c /\ timer c <> Some fd.
Definition wf_config (c : config) : Prop := timer c <> Some (notifier c).

(** Interests the program can build, also starting from an event wait() has reported. *)
Inductive obtainable (h : list obs) : event N -> Prop :=
| obt_new k r w : obtainable h (ev_new epoll_extra k r w)
| obt_reported b fd e : Reported b ∈ h -> (fd, e) ∈ b -> obtainable h e
| obt_interrupt e b : obtainable h e -> obtainable h (set_interrupt epoll_extra e b)
| obt_priority e b : obtainable h e -> obtainable h (set_priority epoll_extra e b)
| obt_clear e : obtainable h e -> obtainable h (clear_extra epoll_extra e)
| obt_fields e k r w : obtainable h e -> obtainable h (Ev k r w (ev_extra e)).

(** Readiness words have no EPOLLET, EPOLLONESHOT etc. in them (bits 28 to 31). *)
Definition plain (m : N) : Prop := forall n, bit m n -> (n < 28)%N.

(** What the program may do (src/lib.rs:554, 659 reject the reserved key, C01) and how files
    behave: a file that becomes ready for something wakes its pollers with it. *)
Definition usable (h : list obs) (e : event N) : Prop :=
  obtainable h e /\ ev_key e <> NOTIFY_KEY /\ (ev_key e < 2 ^ 64)%N.
Definition legal (c : config) (s : state) (l : label) : Prop :=
  match l with
  | LAdd fd e _ _ | LModify fd e _ _ => user_fd c fd /\ usable (log s) e
  | LDelete fd _ | LClose fd => user_fd c fd
  | LHappen fd m key =>
      user_fd c fd /\ plain m /\ forall n, bit m n -> ~ bit (ready (kern s) fd) n -> bit key n
  | LWait _ max => 0 < max
  | _ => True
  end.

Inductive reachable (c : config) : state -> Prop :=
| reach_init : reachable c (init c)
| reach_step s l s' : reachable c s -> legal c s l -> step c s l = Some s' -> reachable c s'.

(** The registration of [fd] according to the calls that returned Ok. *)
Definition registration : Type := event N * poll_mode.
Definition after (fd : Z) (r : option registration) (o : obs) : option registration :=
  match o with
  | AddRet g e m (Ok _) | ModifyRet g e m (Ok _) => if decide (g = fd) then Some (e, m) else r
  | DeleteRet g (Ok _) | Closed g => if decide (g = fd) then None else r
  | _ => r
  end.
Definition registered (fd : Z) (h : list obs) : option registration :=
  fold_left (after fd) h None.

(** The log entry (re)registers [fd]. *)
Definition registers (fd : Z) (o : obs) : Prop :=
  match o with
  | AddRet g _ _ (Ok _) | ModifyRet g _ _ (Ok _) => g = fd
  | _ => False
  end.
Global Instance registers_dec fd o : Decision (registers fd o).
Proof. destruct o as [g ? ? []|g ? ? []| | | | | | | | | | ]; simpl; apply _. Defined.
(** ... in an edge-triggered mode. *)
Definition registers_other_mode (fd : Z) (o : obs) : Prop :=
  match o with
  | AddRet g _ m (Ok _) | ModifyRet g _ m (Ok _) => g = fd /\ ~ mode_edge m
  | _ => False
  end.

(** What is watched for a registration: its interest, and always errors and hang-ups. *)
Definition watched (e : event N) (n : N) : Prop :=
  (ev_readable e = true /\ (n = b_in \/ n = b_pri)) \/ (ev_writable e = true /\ n = b_out) \/
  n = b_err \/ n = b_hup \/ bit (ev_extra e) n.

(** How often wait() reported [fd], the file woke its pollers, [fd] was (re)registered. *)
Definition reports_of (fd : Z) (o : obs) : nat :=
  match o with Reported b => length (filter (fun x => x.1 = fd) b) | _ => 0 end.
Definition wakes_of (fd : Z) (o : obs) : nat :=
  match o with Happened g _ _ => if decide (g = fd) then 1 else 0 | _ => 0 end.
Definition registrations_of (fd : Z) (o : obs) : nat :=
  if decide (registers fd o) then 1 else 0.
Definition total (f : obs -> nat) (h : list obs) : nat := foldr (fun o n => f o + n) 0 h.

(** Runs in which [fd] keeps its registration, stays ready for it, and is not reported; with the
    number of kernel waits in them. *)
Inductive passed_over (c : config) (fd : Z) : nat -> state -> state -> Prop :=
| po_nil s : passed_over c fd 0 s s
| po_step n s s1 l s2 : passed_over c fd n s s1 -> legal c s1 l -> step c s1 l = Some s2 ->
    registered fd (log s2) = registered fd (log s1) ->
    (exists e m b, registered fd (log s2) = Some (e, m) /\ watched e b /\ bit (ready (kern s2) fd) b) ->
    (forall b, log s2 = log s1 ++ [Reported b] -> forall e, (fd, e) ∉ b) ->
    passed_over c fd (match l, wait s1 with LGo, WPoll _ _ => S n | _, _ => n end) s s2.

(** What [fd] is ready for, according to the log. *)
Definition became (fd : Z) (m : N) (o : obs) : N :=
  match o with
  | Happened g m' _ => if decide (g = fd) then m' else m
  | Closed g => if decide (g = fd) then 0%N else m
  | _ => m
  end.
Definition readiness (fd : Z) (h : list obs) : N := fold_left (became fd) h 0%N.

(** Some wait() has returned from the kernel and not yet returned to its caller; a wait() failed
    after that, and none has succeeded since. *)
Definition between (b : bool) (o : obs) : bool :=
  match o with Reported _ => true | WaitBegun _ | WaitOk | WaitErr _ => false | _ => b end.
Definition returning (h : list obs) : bool := fold_left between h false.
Definition broke (x : bool * bool) (o : obs) : bool * bool :=
  (between x.1 o, match o with WaitErr _ => x.1 || x.2 | WaitOk => false | _ => x.2 end).
Definition wait_broken (h : list obs) : bool := (fold_left broke h (false, false)).2.

(** Log entries about the registration of [fd], or reporting it. *)
Definition concerns (fd : Z) (o : obs) : Prop :=
  match o with
  | AddRet g _ _ _ | ModifyRet g _ _ _ | DeleteRet g _ | Closed g => g = fd
  | Reported b => exists e, (fd, e) ∈ b
  | _ => False
  end.
(** Runs in which nothing is done to the registration of [fd] and it is not reported. *)
Inductive undisturbed (c : config) (fd : Z) : state -> state -> Prop :=
| ud_nil s : undisturbed c fd s s
| ud_step s s1 l s2 : undisturbed c fd s s1 -> legal c s1 l -> step c s1 l = Some s2 ->
    (forall o, log s2 = log s1 ++ [o] -> ~ concerns fd o) -> undisturbed c fd s s2.

(** [fd] was reported in a one-shot mode and has not been (re)registered since. *)
Definition spent (fd : Z) (h : list obs) : Prop :=
  exists h1 b e e' m h2, h = h1 ++ Reported b :: h2 /\ (fd, e') ∈ b /\
    registered fd h1 = Some (e, m) /\ mode_oneshot m /\ Forall (fun o => ~ registers fd o) h2.

(** The registration the kernel holds for an interest and a mode. *)
Definition holds (it : item) (e : event N) (m : poll_mode) : Prop :=
  it_data it = ev_key e /\
  forall n, bit (it_events it) n <->
    watched e n \/ (mode_oneshot m /\ n = b_oneshot) \/ (mode_edge m /\ n = b_et).

(** The step is a new event for what [fd] watches, or (re)registers it. *)
Definition news (fd : Z) (e : event N) (s s' : state) : Prop :=
  (exists m key n, log s' = log s ++ [Happened fd m key] /\ watched e n /\ bit key n) \/
  (exists o, log s' = log s ++ [o] /\ registers fd o).
