(** A poller inside another poller: the descriptor of a poller (src/lib.rs:992-1007, src/epoll.rs:245-254,
    src/port.rs:153-162) can be registered in another poller, or be given to select() and the
    like.  What the kernel calls readable is not in /repo: trusted. *)
From stdpp Require Import prelude list gmap.
From Verif Require Import Types EpollModel PortModel KqueueModel.
Local Open Scope nat_scope.

(** __ep_eventpoll_poll of fs/eventpoll.c: some registration on the ready list has something to
    report. *)
Definition epoll_readable (k : EpollModel.kernel) : Prop :=
  exists fd it, fd ∈ rdl k /\ items k !! fd = Some it /\ item_poll k fd it <> 0%N.
(** port_poll of an event port: something is queued. *)
Definition port_readable (k : PortModel.kernel) : Prop := PortModel.queue k <> [].
(** kqueue_poll: some note is on the queue and its filter has something.  (Real kernels may also
    call a queue readable for a note whose filter has nothing any more, so this is used in one
    direction only: what is readable here is readable there.) *)
Definition kqueue_readable (k : KqueueModel.kernel) : Prop :=
  exists f n, KqueueModel.notes k !! f = Some n /\ kn_active n = true /\ is_pending k f = true.

(** The system calls of one wait(None) up to the kernel's answer, none of them failing and nothing
    else happening. *)
Definition wait_now (c : EpollModel.config) (max : nat) : list EpollModel.label :=
  EpollModel.LWait None max ::
  match EpollModel.timer c with
  | Some _ => [EpollModel.LGo; EpollModel.LGo; EpollModel.LGo]
  | None => [EpollModel.LGo]
  end.
(** A wait without a timeout that is called now comes back at once, with something to report. *)
Definition returns_at_once (c : EpollModel.config) (s : EpollModel.state) (max : nat) : Prop :=
  exists s' h b, EpollModel.run c s (wait_now c max) = Some s' /\
    EpollModel.log s' = h ++ [EpollModel.Reported b] /\ b <> [].

(** The deadline of an earlier wait has passed, and the timer has not been set again. *)
Definition overdue (h : list EpollModel.obs) : Prop :=
  exists h1 h2, h = h1 ++ EpollModel.Expired :: h2 /\
    Forall (fun o => forall t, o <> EpollModel.TimerSet t) h2.
(** Somebody called notify() and the kernel has not been asked since. *)
Definition unanswered (h : list EpollModel.obs) : Prop :=
  exists h1 h2, h = h1 ++ EpollModel.Notified :: h2 /\
    Forall (fun o => forall b, o <> EpollModel.Reported b) h2.
