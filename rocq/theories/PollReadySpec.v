(** What it means that the poll backend does not sleep through a source that is ready, and reports it. *)
From stdpp Require Import prelude list gmap.
From Verif Require Import Bits Types EventModel EventSpec PollModel PollSpec PollConcModel PollConcSpec.
Local Open Scope nat_scope.

(** The flags of poll(2) that are true of each descriptor at the moment. *)
Definition world : Type := Z -> N.

(** Which of them a caller who registers [e] is to be told: the documented meaning of the interest, and failures, which
    poll(2) reports always. *)
Definition asks (e : event N) (b : N) : Prop :=
  (ev_readable e = true /\ (b = b_in \/ b = b_pri)) \/ (ev_writable e = true /\ (b = b_out \/ b = b_wrband)) \/
  b = b_err \/ b = b_hup \/ b = 5%N (* POLLNVAL *).

(** POSIX: poll(2) returns for every entry the flags that are true and were asked for, or cannot be masked; the number
    returned is that of entries with flags.  (What it says about the notifier, entry 0, is the business of [step].) *)
Definition truthful (w : world) (t : fds) (a : answer) : Prop :=
  posix_answer t (PollRet a.1 a.2) /\
  forall i pf f, 0 < i -> poll_fds t !! i = Some pf -> a.1 !! i = Some f ->
    forall b, bit f b <-> bit (w (pfd_fd pf)) b /\ (bit (pfd_events pf) b \/ b = b_err \/ b = b_hup \/ b = 5%N).

(** A call that changes what is registered for [fd]. *)
Definition changes (fd : Z) (o : obs) : Prop :=
  match o with OpEffect _ cl (Ok _) => call_fd cl = fd | _ => False end.
(** A modify that fails because of its mode (it has an effect nevertheless, C28). *)
Definition wrong_mode (fd : Z) (o : obs) : Prop :=
  match o with OpEffect _ (CModify fd' _ (Edge | EdgeOneshot)) _ => fd' = fd | _ => False end.
(** A wait that has returned an event for [fd]. *)
Definition tells (fd : Z) (o : obs) : Prop :=
  match o with WaitOk _ evs => exists e, (fd, e) ∈ evs | _ => False end.

(** The last successful call about [fd] was add or modify with [e] and [m], and if it is to be reported once only then
    it has not been since. *)
Definition requested (fd : Z) (e : event N) (m : poll_mode) (h : list obs) : Prop :=
  exists h1 i cl h2, h = h1 ++ OpEffect i cl (Ok tt) :: h2 /\ (cl = CAdd fd e m \/ cl = CModify fd e m) /\
    (forall o, o ∈ h2 -> ~ changes fd o) /\ (m = Oneshot -> forall o, o ∈ h2 -> ~ tells fd o).

(** Steps of any threads. *)
Inductive later (c : config) (s0 : state) : state -> Prop :=
| later_refl : later c s0 s0
| later_step s l s' : later c s0 s -> legal s l -> step c s l = Some s' -> later c s0 s'.

(** The return of a wait of thread [i]. *)
Definition wait_returns (i : nat) (o : obs) : Prop :=
  match o with WaitOk j _ | WaitError j _ => j = i | _ => False end.
